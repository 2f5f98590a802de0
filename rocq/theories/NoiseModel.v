(** Model of the noise added to spectra: spectra.py:374-431 add_noise and
    add_cont_error.  Exact real arithmetic.  The flux array is modified in place
    by the code: the returned flux is also the new contents of the caller's
    array. *)
From Coq Require Import Reals List Bool ZArith Arith Lia Lra.
Import ListNotations.
Local Open Scope R_scope.

(** The global numpy generator (external): seeding replaces the whole state,
    [gauss] gives the next standard normal number and the next state. *)
Record generator := Generator {
  G : Type;
  seed_state : Z -> G;
  gauss : G -> R * G
}.

(** numpy accepts seeds from 0 to 2^32 - 1; others raise ValueError. *)
Definition np_seed (r : generator) (s : Z) : option (G r) :=
  if (0 <=? s)%Z && (s <? 2 ^ 32)%Z then Some (seed_state r s) else None.

(** numpy's legacy [np.random.normal(0, scale)]: [scale] times a standard normal
    number; a negative scale raises ValueError. *)
Definition np_normal (r : generator) (scale : R) (g : G r) : option (R * G r) :=
  if Rlt_dec scale 0 then None
  else let (x, g') := gauss r g in Some (scale * x, g').

(** [np.random.normal(0, scale, n)]: the numbers are drawn one after the other *)
Fixpoint draws (r : generator) (scale : R) (n : nat) (g : G r) : list R * G r :=
  match n with
  | 0%nat => ([], g)
  | S n' => let (x, g1) := gauss r g in
            let (xs, g2) := draws r scale n' g1 in (scale * x :: xs, g2)
  end.

(** np.random.normal(0, scale, n) with the state of the generator. *)
Definition np_normals (r : generator) (scale : R) (n : nat) (g : G r) : option (list R * G r) :=
  if Rlt_dec scale 0 then None else Some (draws r scale n g).

(** Python indexing of a one dimensional array: negative indices count from the
    end; [None] is the IndexError. *)
Definition py_get (a : list R) (i : Z) : option R :=
  let n := Z.of_nat (length a) in
  if (0 <=? i)%Z && (i <? n)%Z then nth_error a (Z.to_nat i)
  else if (- n <=? i)%Z && (i <? 0)%Z then nth_error a (Z.to_nat (i + n))
  else None.

(** Elementwise in-place operations on a row; different lengths raise
    ValueError.  (Simplified: numpy would also broadcast a noise array of length
    one.) *)
Fixpoint add_rows (a b : list R) : option (list R) :=
  match a, b with
  | [], [] => Some []
  | x :: a', y :: b' => option_map (cons (x + y)) (add_rows a' b')
  | _, _ => None
  end.

(** A row divided by a number. *)
Definition divide_row (d : R) (a : list R) : list R := map (fun x => x / d) a.

(** The shape of the flux argument: one spectrum, or one per row. *)
Inductive flux := One (row : list R) | Rows (rows : list (list R)).

(** The result: new flux, second return value and generator state, or an
    exception. *)
Inductive outcome (S : Type) :=
| Done (f : flux) (extra : list R) (g : S)
| Raise.
Arguments Done {S}. Arguments Raise {S}.

(** spectra.py:389-390 and 393-394: noise for one spectrum whose number is [i] *)
Definition noise_for (r : generator) (nbins : nat) (snr : list R) (i : Z) : option (list R * G r) :=
  match np_seed r i, py_get snr i with
  | Some g, Some s => np_normals r (1 / s) nbins g
  | _, _ => None
  end.

(** spectra.py:392-396: the loop over rows, with the noise collected so far *)
Fixpoint noise_loop (r : generator) (nbins : nat) (snr : list R) (ii : nat)
  (rows : list (list R)) (acc : list R) (g : G r) : option (list (list R) * list R * G r) :=
  match rows with
  | [] => Some ([], acc, g)
  | row :: rows' =>
      match noise_for r nbins snr (Z.of_nat ii) with
      | None => None
      | Some (noise, g1) =>
          match add_rows row noise, noise_loop r nbins snr (S ii) rows' (acc ++ noise) g1 with
          | Some row', Some (rs, acc', g2) => Some (row' :: rs, acc', g2)
          | _, _ => None
          end
      end
  end.

(** spectra.py:374-397 add_noise *)
Definition add_noise (r : generator) (nbins : nat) (snr : list R) (f : flux) (spec_num : Z)
  (g : G r) : outcome (G r) :=
  let single row shape :=
    match noise_for r nbins snr spec_num with
    | None => Raise
    | Some (noise, g') =>
        match add_rows row noise with
        | Some row' => Done (shape row') [] g'
        | None => Raise
        end
    end in
  match f with
  | One row => single row One
  | Rows [row] => single row (fun x => Rows [x])
  | Rows rows =>
      match noise_loop r nbins snr 0 rows [] g with
      | Some (rs, noise, g') => Done (Rows rs) noise g'
      | None => Raise
      end
  end.

(** spectra.py:418-421 and 427-429: draw until the number lies within the
    limits, at most [fuel] times.  [None] is an exception, [Some None] that the
    loop has not ended. *)
Fixpoint redraw (r : generator) (scale lo hi : R) (fuel : nat) (g : G r)
  : option (option (R * G r)) :=
  match fuel with
  | 0%nat => Some None
  | S fuel' =>
      match np_normal r scale g with
      | None => None
      | Some (d, g') =>
          if Rlt_dec d lo then redraw r scale lo hi fuel' g'
          else if Rlt_dec hi d then redraw r scale lo hi fuel' g'
          else Some (Some (d, g'))
      end
  end.

(** spectra.py:417-421 and 426-429: the error of the continuum of spectrum [i];
    the seed is twice its number *)
Definition delta_for (r : generator) (ce : list R) (lo hi : R) (fuel : nat) (i : Z)
  : option (option (R * G r)) :=
  match np_seed r (2 * i), py_get ce i with
  | Some g, Some s => redraw r s lo hi fuel g
  | _, _ => None
  end.

(** How the function ends. *)
Inductive cont_outcome (S : Type) :=
| CDone (f : flux) (deltas : list R) (g : S)
| CRaise
| CLoops.
Arguments CDone {S}. Arguments CRaise {S}. Arguments CLoops {S}.

(** spectra.py:425-430: the loop over rows *)
Fixpoint cont_loop (r : generator) (ce : list R) (lo hi : R) (fuel : nat) (ii : nat)
  (rows : list (list R)) (g : G r) : option (option (list (list R) * list R * G r)) :=
  match rows with
  | [] => Some (Some ([], [], g))
  | row :: rows' =>
      match delta_for r ce lo hi fuel (Z.of_nat ii) with
      | None => None
      | Some None => Some None
      | Some (Some (d, g1)) =>
          match cont_loop r ce lo hi fuel (S ii) rows' g1 with
          | Some (Some (rs, ds, g2)) => Some (Some (divide_row (1 + d) row :: rs, d :: ds, g2))
          | other => other
          end
      end
  end.

(** spectra.py:400-431 add_cont_error; the number of draws per spectrum is
    limited to [fuel], which the code does not do. *)
Definition add_cont_error (r : generator) (fuel : nat) (ce : list R) (f : flux) (spec_num : Z)
  (hi lo : R) (g : G r) : cont_outcome (G r) :=
  let single row shape :=
    match delta_for r ce lo hi fuel spec_num with
    | None => CRaise
    | Some None => CLoops
    | Some (Some (d, g')) => CDone (shape (divide_row (1 + d) row)) [d] g'
    end in
  match f with
  | One row => single row One
  | Rows [row] => single row (fun x => Rows [x])
  | Rows rows =>
      match cont_loop r ce lo hi fuel 0 rows g with
      | Some (Some (rs, ds, g')) => CDone (Rows rs) ds g'
      | Some None => CLoops
      | None => CRaise
      end
  end.

(** Model of the masking of saturated absorption: Spectra._filter_single_tau_complex and
    Spectra._filter_tau, fake_spectra/spectra.py:1219-1270.

    Floats are real numbers.  The counters (tot) are only returned for printing and are left out. *)
From Coq Require Import List Reals Arith.
From Verif Require Import IndexModel AbsorptionSpec.
Import ListNotations.
Local Open Scope R_scope.

(** [Running]: the loop has not ended within the given number of iterations. *)
Inductive outcome (A : Type) := Done (a : A) | Raises | Running.
Arguments Done {A}. Arguments Raises {A}. Arguments Running {A}.

(** np.max and np.argmax (the first maximum) of a non-empty array. *)
Fixpoint argmax_from (l : list R) (i best : nat) (v : R) : nat * R :=
  match l with
  | [] => (best, v)
  | x :: l' => if Rlt_dec v x then argmax_from l' (S i) i x else argmax_from l' (S i) best v
  end.
Definition argmax (l : list R) : option (nat * R) :=
  match l with [] => None | x :: l' => Some (argmax_from l' 1 0 x) end.

(** spectra.py:1236-1240: the loop towards lower indices.  The python index is k - nbins, so that indices 0 .. nbins-1
    of k are the negative ones; [None]: IndexError, below -nbins. *)
Fixpoint down (newthresh taueff : R) (k : nat) (l : list R) : option (list R) :=
  if Rlt_dec newthresh (nth (k mod length l) l 0) then
    let l' := update_nth (k mod length l) (fun _ => taueff) l in
    match k with O => None | S k' => down newthresh taueff k' l' end
  else Some l.

(** spectra.py:1243-1244, 1248-1249: the wrapping of maxx + j. *)
Definition wrap (n i : nat) : nat := if Nat.leb n i then i - n else i.

(** spectra.py:1245-1249: the loop towards higher indices; i = maxx + j.  [None]: still running. *)
Fixpoint up (newthresh taueff : R) (fuel i : nat) (l : list R) : option (list R) :=
  if Rlt_dec newthresh (nth i l 0) then
    match fuel with
    | O => None
    | S fuel' => up newthresh taueff fuel' (wrap (length l) (i + 1)) (update_nth i (fun _ => taueff) l)
    end
  else Some l.

(** _filter_single_tau_complex, spectra.py:1219-1252, with its default thresh2 = 0.25. *)
Fixpoint filter_single (fuel : nat) (taueff thresh : R) (l : list R) : outcome (list R) :=
  match argmax l with
  | None => Raises
  | Some (maxx, v) =>
      if Rlt_dec thresh v then
        match fuel with
        | O => Running
        | S fuel' =>
            let newthresh := taueff + 1 / 4 in
            match down newthresh taueff (maxx + length l) l with
            | None => Raises
            | Some l1 =>
                match up newthresh taueff (length l) (wrap (length l) (maxx + 1)) l1 with
                | None => Running
                | Some l2 => filter_single fuel' taueff thresh l2
                end
            end
        end
      else Done l
  end.

(** spectra.py:1261: the effective optical depth -log(mean(exp(-tau))). *)
Definition effective_tau (tau : list (list R)) : R :=
  - ln (rsum (map (fun t => exp (- t)) (concat tau)) / INR (length (concat tau))).

(** spectra.py:1264-1267: the loop over spectra.  Filtering a spectrum whose maximum is not above the threshold
    (which the code leaves out) does nothing. *)
Fixpoint filter_rows (fuel : nat) (taueff thresh : R) (rows : list (list R)) : outcome (list (list R)) :=
  match rows with
  | [] => Done []
  | r :: rest =>
      match filter_single fuel taueff thresh r with
      | Done r' => match filter_rows fuel taueff thresh rest with
                   | Done rest' => Done (r' :: rest')
                   | Raises => Raises
                   | Running => Running
                   end
      | Raises => Raises
      | Running => Running
      end
  end.

(** _filter_tau, spectra.py:1254-1270.  The array is changed in place: the result is also the new content of the
    array passed in. *)
Definition filter_tau (fuel : nat) (tau : list (list R)) (thresh : option R) : outcome (list (list R)) :=
  match thresh with
  | None => Done tau
  | Some th =>
      match filter_rows fuel (effective_tau tau) th tau with
      | Done out => match argmax (concat out) with
                    | Some (_, v) => if Rlt_dec v (th * (101 / 100)) then Done out else Raises
                    | None => Raises
                    end
      | o => o
      end
  end.

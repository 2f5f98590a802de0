(** Model of the statistics program of the C extractor: cextract/smooth.c:28-59 (smooth),
    cextract/powerspectrum.c:17-30, cextract/calc_power.c:4-35, cextract/mean_flux.c:24-49 and
    cextract/statistic.c (main and calc_pdf).

    Doubles are real numbers (no rounding, overflow or underflow, except that a division by zero
    is not a number).  Reading or writing outside an array is undefined behaviour and is modelled
    as [None].  Not modelled: printing the results (output, statistic.c:206-233), the HELIUM and
    NO_HEADER variants, smooth_kernel (smooth.c:8-25, never called), negative numbers of
    sightlines, int overflow, failure of calloc, file names, and fftw, which is an arbitrary
    function.  The exit codes are not distinguished. *)
From Coq Require Import ZArith List Reals.
Import ListNotations.
Local Open Scope R_scope.

(** a[i] in C: [None] outside the array. *)
Definition c_get (a : list R) (i : Z) : option R :=
  if (i <? 0)%Z then None else nth_error a (Z.to_nat i).

(** The integers lo, lo+1, ..., hi-1: the values of j in [for(j=lo; j<hi; j++)]. *)
Definition c_range (lo hi : Z) : list Z :=
  map (fun k => (lo + Z.of_nat k)%Z) (seq 0 (Z.to_nat (hi - lo))).

(** [for(j=...) out[i] += in[index j]] *)
Definition c_accumulate (a : list R) (index : Z -> Z) (js : list Z) (acc : option R) : option R :=
  fold_left (fun acc j =>
    match acc, c_get a (index j) with Some s, Some x => Some (s + x) | _, _ => None end) js acc.

(** out[i] = v *)
Fixpoint put (i : nat) (v : R) (out : list R) : option (list R) :=
  match i, out with
  | O, _ :: t => Some (v :: t)
  | S i', x :: t => match put i' v t with Some t' => Some (x :: t') | None => None end
  | _, [] => None
  end.
(** The same for an index of type int. *)
Definition c_put (i : Z) (v : R) (out : list R) : option (list R) :=
  if (i <? 0)%Z then None else put (Z.to_nat i) v out.

(** Run a loop whose iteration i stores [value i] in out[i]. *)
Definition c_fill (value : Z -> option R) (is : list Z) (out : option (list R)) : option (list R) :=
  fold_left (fun out i =>
    match out, value i with Some o, Some v => c_put i v o | _, _ => None end) is out.

(** smooth.c:28-59; the values are accumulated in out[i] itself, here in an accumulator.  [out] is
    the content of the output array before the call; slen >= 1. *)
Definition smooth (inp out : list R) (len slen : Z) : option (list R) :=
  let off := Z.quot (slen - 1) 2 in
  let start i :=
    c_accumulate inp (fun j => i + j)%Z (c_range (- i) (off + 1))
      (c_accumulate inp (fun _ => 0%Z) (c_range (- off) (- i)) (Some 0)) in
  let middle i := c_accumulate inp (fun j => i + j)%Z (c_range (- off) (off + 1)) (Some 0) in
  let last i :=
    c_accumulate inp (fun _ => len - 1)%Z (c_range (len - i) (- i + 1))
      (c_accumulate inp (fun j => i + j)%Z (c_range (- off) (len - i)) (Some 0)) in
  let o1 := c_fill start (c_range 0 off) (Some out) in
  let o2 := c_fill middle (c_range off (len - off)) o1 in
  let o3 := c_fill last (c_range (len - off) len) o2 in
  match o3 with
  | None => None
  | Some o => c_fill (fun i => option_map (fun x => x / IZR slen) (c_get o i)) (c_range 0 len) (Some o)
  end.

(** Number of entries of a power spectrum: (nbins+1)/2. *)
Definition npower (dims : nat) : nat := Nat.div (dims + 1) 2.

(** powerspectrum.c:17-30; [F k] is outfield[k], real and imaginary part.  dims >= 1 (for 0 the
    array is empty and power[0] does not exist). *)
Definition powerspectrum (dims : nat) (F : nat -> R * R) : list R :=
  let p0 := if Nat.even dims then fst (F (Nat.div dims 2)) ^ 2 else fst (F O) ^ 2 in
  map (fun x => x / INR (dims * dims))
    (p0 :: map (fun k => fst (F k) ^ 2 + snd (F k) ^ 2) (seq 1 (npower dims - 1))).

(** calc_power.c:17-25 for one sightline, whose optical depths have been scaled already.
    smooth writes to flux_power_sm+1, an uninitialised array: [junk] is its content. *)
Definition one_power (fft : list R -> nat -> R * R) (tau_eff : R) (nbins : nat) (junk row : list R)
  : option (list R) :=
  let flux := map (fun t => exp (- t) / exp (- tau_eff) - 1) row in
  match powerspectrum nbins (fft flux) with
  | [] => None
  | p0 :: rest =>
      match smooth rest junk (Z.of_nat (npower nbins) - 1) 3 with
      | Some sm => Some (p0 :: sm)
      | None => None
      end
  end.

(** calc_power.c:26-28 *)
Fixpoint add_lists (a b : list R) : list R :=
  match a, b with x :: a', y :: b' => (x + y) :: add_lists a' b' | _, _ => [] end.

(** tau_H1[j*nbins .. (j+1)*nbins-1] *)
Definition row (nbins j : nat) (tau : list R) : list R := firstn nbins (skipn (j * nbins) tau).

(** calc_power.c:4-35.  Returns the power spectrum and the array tau_H1, which is scaled in place.
    [junk j] is what flux_power_sm+1 holds before sightline j is smoothed. *)
Definition calc_power_spectra (fft : list R -> nat -> R * R) (junk : nat -> list R) (tau : list R)
    (scale tau_eff : R) (numlos nbins : nat) : option (list R) * list R :=
  let scaled := map (fun t => t * scale) tau in
  (option_map (map (fun x => x / INR numlos))
     (fold_left (fun acc j =>
        match acc, one_power fft tau_eff nbins (junk j) (row nbins j scaled) with
        | Some a, Some p => Some (add_lists a p)
        | _, _ => None
        end) (seq 0 numlos) (Some (repeat 0 (npower nbins)))),
   scaled).

(** PBINS, statistic.c:27. *)
Definition pbins : nat := 20.

(** floor *)
Definition c_floor (x : R) : Z := (up x - 1)%Z.

(** statistic.c:242-246: the bin of one pixel. *)
Definition pdf_bin (scale tau : R) : Z :=
  let x := exp (- scale * tau) * INR pbins in
  if Rle_dec (INR (pbins - 1)) x then Z.of_nat (pbins - 1) else c_floor x.

(** flux_pdf[b]++ *)
Definition c_incr (out : option (list R)) (b : Z) : option (list R) :=
  match out with
  | None => None
  | Some o => match c_get o b with Some x => c_put b (x + 1) o | None => None end
  end.

(** statistic.c:235-254; [tau] has nbins*NumLos entries. *)
Definition calc_pdf (tau : list R) (scale : R) : option (list R) :=
  option_map (map (fun x => x / INR (length tau) * INR pbins))
    (fold_left (fun o t => c_incr o (pdf_bin scale t)) tau (Some (repeat 0 pbins))).

(** mean_flux.c:32-46: one iteration.  [None]: plus infinity or NaN (minus infinity becomes 0). *)
Definition c_next_scale (tau : list R) (obs scale : R) : option R :=
  let flux := fold_left (fun a t => a + exp (- scale * t)) tau 0 in
  let tau_flux := fold_left (fun a t => a + exp (- scale * t) * t) tau 0 in
  let excess := flux - obs * INR (length tau) in
  if Req_EM_T tau_flux 0 then (if Rlt_dec excess 0 then Some 0 else None)
  else let new := scale + excess / tau_flux in Some (if Rlt_dec new 0 then 0 else new).

(** What mean_flux returns; an infinity or NaN ends the loop, as the comparison is false. *)
Inductive c_factor := CFinite (s : R) | CNotFinite.

(** mean_flux.c:32-48; [None]: still running after [fuel] iterations. *)
Fixpoint c_scale_loop (tau : list R) (obs tol : R) (fuel : nat) (scale : R) : option c_factor :=
  match fuel with
  | O => None
  | S fuel' =>
      match c_next_scale tau obs scale with
      | None => Some CNotFinite
      | Some new => if Rlt_dec (tol * new) (Rabs (new - scale))
                    then c_scale_loop tau obs tol fuel' new else Some (CFinite new)
      end
  end.

(** mean_flux.c:28: newscale=100. *)
Definition c_mean_flux (tau : list R) (obs tol : R) (fuel : nat) : option c_factor :=
  c_scale_loop tau obs tol fuel 100.

(** The contents of the input file after its header: the doubles which follow. *)
Record spectra_file := mkFile { f_redshift : R; f_nbins : nat; f_numlos : nat; f_data : list R }.

(** statistic.c:31-97: -s (possibly repeated; atoi of each argument), -u (0 when absent), -r. *)
Record options := mkOptions { o_stats : list Z; o_used : nat; o_norescale : bool }.

(** statistic.c:25 *)
Definition tau_eff_of (redshift : R) : R := 0.0023 * Rpower (1 + redshift) 3.65.

(** How a run ends: error exit, undefined behaviour, a scale that is not finite (nothing more is
    said about such a run), still running after the fuel, or the files written. *)
Inductive run := ErrorExit | Undefined | ScaleNotFinite | Running | Written (power pdf : option (list R)).

(** statistic.c:98-204.  [fuel] bounds the iterations of mean_flux. *)
Definition statistic_main (fft : list R -> nat -> R * R) (junk : nat -> list R) (fuel : nat)
    (o : options) (f : spectra_file) : run :=
  let statistic := fold_left Z.add (o_stats o) 0%Z in
  let want_pdf := Z.testbit statistic 0 in
  let want_power := Z.testbit statistic 1 in
  if negb (want_pdf || want_power) then ErrorExit else
  let used := if Nat.eqb (o_used o) 0 then f_numlos f else o_used o in
  if Nat.eqb (f_numlos f) 0 then ErrorExit else
  let n := (f_nbins f * used)%nat in
  if Nat.ltb (length (f_data f)) n then ErrorExit else
  let tau := firstn n (f_data f) in
  let tau_eff := tau_eff_of (f_redshift f) in
  let scale := if o_norescale o then Some (CFinite 1)
               else c_mean_flux tau (exp (- tau_eff)) (/ 100000) fuel in
  match scale with
  | None => Running
  | Some CNotFinite => ScaleNotFinite
  | Some (CFinite s) =>
      let after_power :=
        if want_power then
          match calc_power_spectra fft junk tau s tau_eff used (f_nbins f) with
          | (Some p, tau') => Some (Some p, tau')
          | (None, _) => None
          end
        else Some (None, tau) in
      match after_power with
      | None => Undefined
      | Some (power, tau') =>
          if want_pdf then
            match calc_pdf tau' s with Some d => Written power (Some d) | None => Undefined end
          else Written power None
      end
  end.

(** Property C44: noise and continuum error. *)
From Coq Require Import Reals List Bool ZArith Arith Lia Lra.
From Verif Require Import NoiseModel NoiseSpec NoiseProofs.
Import ListNotations.
Local Open Scope R_scope.

(** C44.  With two or more spectra (or none) each spectrum gets the noise of its
    own number: the stream of random numbers seeded with it, divided by its
    signal to noise.  The second return value lists the noise of all spectra. *)
Theorem C44_noise_all : forall r nbins snr rows spec_num g,
  length rows <> 1%nat -> (Z.of_nat (length rows) <= 2 ^ 32)%Z ->
  Forall (fun row => length row = nbins) rows ->
  (forall j, (j < length rows)%nat -> exists s, nth_error snr j = Some s /\ 0 < s) ->
  exists rs noise g', add_noise r nbins snr (Rows rows) spec_num g = Done (Rows rs) noise g' /\
    length rs = length rows /\ length noise = (length rows * nbins)%nat /\
    (forall j row s, nth_error rows j = Some row -> nth_error snr j = Some s ->
       exists row', nth_error rs j = Some row' /\ noisy r (Z.of_nat j) s row row') /\
    (forall j k s, (j < length rows)%nat -> (k < nbins)%nat -> nth_error snr j = Some s ->
       nth_error noise (j * nbins + k) = Some (1 / s * stream r (Z.of_nat j) k)).
Proof. exact C44_noise_all_aux. Qed.
Print Assumptions C44_noise_all.

(** One spectrum at a time gives the same noise as all at once, if its number is
    given; but the second return value is empty. *)
Theorem C44_noise_one : forall r nbins snr row i s g,
  (Z.of_nat i < 2 ^ 32)%Z -> nth_error snr i = Some s -> 0 < s -> length row = nbins ->
  exists row', noisy r (Z.of_nat i) s row row' /\
    (exists g', add_noise r nbins snr (One row) (Z.of_nat i) g = Done (One row') [] g') /\
    (exists g', add_noise r nbins snr (Rows [row]) (Z.of_nat i) g = Done (Rows [row']) [] g').
Proof. exact C44_noise_one_aux. Qed.
Print Assumptions C44_noise_one.

(** A spectrum which has no ratio, or a negative one, is refused, and one such spectrum refuses the whole array. *)
Theorem C44_refused : forall r nbins snr i g row rows spec_num,
  (forall s, nth_error snr i = Some s -> s < 0) ->
  add_noise r nbins snr (One row) (Z.of_nat i) g = Raise /\
  add_noise r nbins snr (Rows [row]) (Z.of_nat i) g = Raise /\
  (length rows <> 1%nat -> (i < length rows)%nat -> add_noise r nbins snr (Rows rows) spec_num g = Raise).
Proof. exact C44_refused_aux. Qed.
Print Assumptions C44_refused.

Example C44_refused_example : forall r g, add_noise r 2 [10; -10] (Rows [[1; 1]; [1; 1]]) (-1) g = Raise.
Proof. intros r g. apply (C44_refused r 2 [10; -10] 1 g [] [[1; 1]; [1; 1]] (-1)%Z); [|discriminate|cbn; lia].
  intros s E. injection E as <-. lra. Qed.

(** Earlier use of the generator does not matter, in any call. *)
Theorem C44_history : forall r nbins snr f spec_num g1 g2,
  same_result (add_noise r nbins snr f spec_num g1) (add_noise r nbins snr f spec_num g2).
Proof. exact C44_history_aux. Qed.
Print Assumptions C44_history.

(** The default number -1, documented as "all spectra", is refused when there is
    one spectrum. *)
Theorem C44_default_refuted : forall r nbins snr row spec_num g fuel ce hi lo, (spec_num < 0)%Z ->
  add_noise r nbins snr (One row) spec_num g = Raise /\
  add_noise r nbins snr (Rows [row]) spec_num g = Raise /\
  add_cont_error r fuel ce (One row) spec_num hi lo g = CRaise /\
  add_cont_error r fuel ce (Rows [row]) spec_num hi lo g = CRaise.
Proof. exact C44_negative_aux. Qed.
Print Assumptions C44_default_refuted.

(** The array passed in is changed: asking twice for the noisy flux of the same
    array doubles the noise. *)
Theorem C44_twice_refuted : forall r nbins snr row i s g,
  (Z.of_nat i < 2 ^ 32)%Z -> nth_error snr i = Some s -> 0 < s -> length row = nbins ->
  exists row1 row2 g1 g2,
    add_noise r nbins snr (One row) (Z.of_nat i) g = Done (One row1) [] g1 /\
    add_noise r nbins snr (One row1) (Z.of_nat i) g1 = Done (One row2) [] g2 /\
    forall k x, nth_error row k = Some x ->
      nth_error row2 k = Some (x + 2 * (1 / s * stream r (Z.of_nat i) k)).
Proof. exact C44_twice_aux. Qed.
Print Assumptions C44_twice_refuted.

(** The continuum error of each spectrum is the first number of its own stream
    within the limits, and divides the whole spectrum. *)
Theorem C44_delta_all : forall r fuel ce rows spec_num hi lo g rs ds g',
  length rows <> 1%nat -> (2 * Z.of_nat (length rows) <= 2 ^ 32)%Z ->
  (forall j, (j < length rows)%nat -> exists s, nth_error ce j = Some s /\ 0 <= s) ->
  add_cont_error r fuel ce (Rows rows) spec_num hi lo g = CDone (Rows rs) ds g' ->
  length rs = length rows /\ length ds = length rows /\
  forall j row s, nth_error rows j = Some row -> nth_error ce j = Some s ->
    exists d, nth_error ds j = Some d /\ first_within r (Z.of_nat j) s lo hi d /\
      nth_error rs j = Some (map (fun x => x / (1 + d)) row).
Proof. exact C44_delta_all_aux. Qed.
Print Assumptions C44_delta_all.

(** The same for one spectrum; the search ends if and only if some number of the
    stream lies within the limits. *)
Theorem C44_delta_one : forall r ce row i s hi lo g,
  (2 * Z.of_nat i < 2 ^ 32)%Z -> nth_error ce i = Some s -> 0 <= s ->
  (forall fuel f ds g', add_cont_error r fuel ce (One row) (Z.of_nat i) hi lo g = CDone f ds g' ->
     exists d, first_within r (Z.of_nat i) s lo hi d /\ ds = [d] /\ f = One (map (fun x => x / (1 + d)) row)) /\
  (forall fuel, add_cont_error r fuel ce (One row) (Z.of_nat i) hi lo g <> CRaise) /\
  ((exists fuel, add_cont_error r fuel ce (One row) (Z.of_nat i) hi lo g <> CLoops) <->
   exists k, lo <= s * stream r (2 * Z.of_nat i) k <= hi).
Proof. exact C44_delta_one_aux. Qed.
Print Assumptions C44_delta_one.

(** Within limits above -1 the flux keeps its sign and changes by a bounded
    factor; the error does not depend on how many draws were allowed. *)
Theorem C44_range : forall r i s lo hi d x, first_within r i s lo hi d -> -1 < lo -> 0 <= x ->
  x / (1 + hi) <= x / (1 + d) <= x / (1 + lo) /\ (0 < x -> 0 < x / (1 + d)).
Proof. exact C44_range_aux. Qed.
Print Assumptions C44_range.

Theorem C44_unique : forall r i s lo hi d d',
  first_within r i s lo hi d -> first_within r i s lo hi d' -> d = d'.
Proof. exact first_within_det. Qed.
Print Assumptions C44_unique.

(** The two errors are not independent, contrary to the comment in the code: the
    continuum error of spectrum [i] is the noise in the first pixel of spectrum
    [2 i], rescaled, whenever that lies within the limits. *)
Theorem C44_independent_refuted : forall r nbins snr rows n1 g fs noise g' fuel ce rows2 n2 hi lo h rs ds h' i s c,
  add_noise r nbins snr (Rows rows) n1 g = Done fs noise g' ->
  add_cont_error r fuel ce (Rows rows2) n2 hi lo h = CDone (Rows rs) ds h' ->
  (Z.of_nat (length rows) <= 2 ^ 32)%Z -> length rows <> 1%nat ->
  Forall (fun row => length row = nbins) rows -> (0 < nbins)%nat ->
  (forall j, (j < length rows)%nat -> exists s, nth_error snr j = Some s /\ 0 < s) ->
  (2 * Z.of_nat (length rows2) <= 2 ^ 32)%Z -> length rows2 <> 1%nat ->
  (forall j, (j < length rows2)%nat -> exists s, nth_error ce j = Some s /\ 0 <= s) ->
  (2 * i < length rows)%nat -> (i < length rows2)%nat ->
  nth_error snr (2 * i) = Some s -> nth_error ce i = Some c ->
  exists e, nth_error noise (2 * i * nbins) = Some e /\
    (lo <= c * (s * e) <= hi -> nth_error ds i = Some (c * (s * e))).
Proof. exact C44_correlated_aux. Qed.
Print Assumptions C44_independent_refuted.

(** ** The hypotheses are met *)

(** A small generator: seed [s] gives s, s+1, s+2, ... *)
Definition counting : generator := Generator Z (fun s => s) (fun g => (IZR g, (g + 1)%Z)).

Example two_rows : (forall j, (j < length [[1; 1]; [1; 1]])%nat -> exists s, nth_error [10; 5] j = Some s /\ 0 < s) /\
  Forall (fun row => length row = 2%nat) [[1; 1]; [1; 1]].
Proof.
  split; [|repeat constructor]. intros [|[|j]] J; cbn in *; [eexists; split; [reflexivity|lra] .. | lia].
Qed.

Example two_rows_noise : exists rs noise g',
  add_noise counting 2 [10; 5] (Rows [[1; 1]; [1; 1]]) (-1) 17%Z = Done (Rows rs) noise g' /\
  nth_error noise 3 = Some (1 / 5 * 2).
Proof.
  destruct (C44_noise_all counting 2 [10; 5] [[1; 1]; [1; 1]] (-1) 17%Z) as (rs & noise & g' & E & _ & _ & _ & N);
    try apply two_rows; cbn [length]; try lia.
  exists rs, noise, g'. split; auto. apply (N 1%nat 1%nat 5); cbn [length]; auto.
Qed.

Example delta_done : exists rs ds g',
  add_cont_error counting 3 [0.1; 0.1] (Rows [[1]; [1]]) (-1) 0.6 (-0.6) 17%Z = CDone (Rows rs) ds g' /\
  nth_error ds 1 = Some (0.1 * 2).
Proof.
  unfold add_cont_error, cont_loop, delta_for, redraw, np_normal. cbn -[Rmult Rdiv Rlt_dec].
  change (Pos.to_nat 1) with 1%nat. cbn [nth_error].
  destruct (Rlt_dec 0.1 0); [lra|].
  destruct (Rlt_dec (0.1 * 0) (-0.6)); [lra|]. destruct (Rlt_dec 0.6 (0.1 * 0)); [lra|].
  destruct (Rlt_dec (0.1 * 2) (-0.6)); [lra|]. destruct (Rlt_dec 0.6 (0.1 * 2)); [lra|].
  do 3 eexists. split; reflexivity.
Qed.

(** Redrawing happens: with a wide distribution the second draw is taken. *)
Example redraw_case : first_within counting 1 0.5 1.2 2 1.5.
Proof.
  exists 1%nat. cbn -[Rmult]. split; [lra|]. split; [lra|].
  intros m M. assert (m = 0%nat) by lia. subst. cbn -[Rmult]. lra.
Qed.

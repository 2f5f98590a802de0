(** C91 to C93: rounding of spectra, of the mean flux, and of the rescaling factor. *)
From Coq Require Import List Bool ZArith Reals Lra Lia Permutation.
From Flocq Require Import Core.
From Verif Require Import FloatModel FloatSpec FloatProofs FloatProofs2 FloatProofs3.
Import ListNotations.
Local Open Scope R_scope.

(** ** C91 *)

(** A pixel of N contributions in n further segments differs from the exact sum by (1+2^-53)^(N+n)-1 of it at most. *)
Theorem C91_serial : forall cs rest, proper (Some cs :: rest) ->
  (1 + unit Double) ^ (length (all_added (Some cs :: rest)) + length rest) * total (all_added (Some cs :: rest)) < top Double ->
  exists v, compute_serial (Some cs) rest = (Double, Fin v) /\ 0 <= v /\
    Rabs (v - total (all_added (Some cs :: rest))) <= ((1 + unit Double) ^ (length (all_added (Some cs :: rest)) + length rest) - 1) * total (all_added (Some cs :: rest)).
Proof. exact serial_aux. Qed.
Print Assumptions C91_serial.

(** Two ways to store the same particles in segments, in any order. *)
Theorem C91_split : forall cs rest cs' rest' n, proper (Some cs :: rest) ->
  Permutation (all_added (Some cs :: rest)) (all_added (Some cs' :: rest')) ->
  (length (all_added (Some cs :: rest)) + length rest <= n)%nat -> (length (all_added (Some cs :: rest)) + length rest' <= n)%nat ->
  let x := total (all_added (Some cs :: rest)) in (1 + unit Double) ^ n * x < top Double ->
  exists v v', compute_serial (Some cs) rest = (Double, Fin v) /\ compute_serial (Some cs') rest' = (Double, Fin v') /\
    Rabs (v - v') <= 2 * ((1 + unit Double) ^ n - 1) * x.
Proof. exact split_aux. Qed.
Print Assumptions C91_split.

(** Any rank count, any distribution of segments, any order of the reduction. *)
Theorem C91_ranks : forall ranks t out, proper (segments ranks) -> compute_mpi ranks t out ->
  let N := length (all_added (segments ranks)) in let n := length (segments ranks) in let r := length ranks in let x := total (all_added (segments ranks)) in
  (1 + unit Double) ^ (N + n) * (1 + unit Single) ^ (n + r) * (x + INR n * tiny_half Single) < top Single ->
  exists v, out = (Single, Fin v) /\ 0 <= v /\
    (1 - unit Double) ^ (N + n) * (1 - unit Single) ^ (n + r) * x - INR n * tiny_half Single <= v <=
    (1 + unit Double) ^ (N + n) * (1 + unit Single) ^ (n + r) * (x + INR n * tiny_half Single).
Proof. exact mpi_aux. Qed.
Print Assumptions C91_ranks.

(** One process, whatever the first segment holds. *)
Theorem C91_first : forall first rest, proper (first :: rest) ->
  let N := length (all_added (first :: rest)) in let n := length rest in let x := total (all_added (first :: rest)) in
  (1 + unit Double) ^ (N + n) * (1 + unit Single) ^ n * (x + INR n * tiny_half Single) < top Single ->
  exists v, compute_serial first rest = (match first with Some _ => Double | None => Single end, Fin v) /\ 0 <= v /\
    (1 - unit Double) ^ (N + n) * (1 - unit Single) ^ n * x - INR n * tiny_half Single <= v <=
    (1 + unit Double) ^ (N + n) * (1 + unit Single) ^ n * (x + INR n * tiny_half Single).
Proof. exact serial_single_aux. Qed.
Print Assumptions C91_first.

(** More absorption never lowers a pixel, also after rounding and overflow. *)
Theorem C91_monotone : forall first first' rest rest', Forall (fun c => 0 <= c) (all_added (first :: rest)) ->
  raised_segment first first' -> Forall2 raised_segment rest rest' ->
  fst (compute_serial first rest) = fst (compute_serial first' rest') /\ not_above (snd (compute_serial first rest)) (snd (compute_serial first' rest')).
Proof. exact serial_ordered_aux. Qed.
Print Assumptions C91_monotone.

(** The same particles in other segments, or in another order, do not give the same bits. *)
Theorem C91_order_refuted : exists cs, Forall (fun c => 0 <= c /\ is_float Double c) cs /\ exists a b c,
  cs = a :: b :: c :: nil /\ snd (compute_serial (Some [a; b]) [Some [c]]) <> snd (compute_serial (Some [a]) [Some [b; c]]) /\
  snd (compute_serial (Some [a; b; c]) []) <> snd (compute_serial (Some [c; b; a]) []).
Proof. exact split_refuted_aux. Qed.
Print Assumptions C91_order_refuted.

(** If the first segment has no particle near a line, the result has 24 bits, and what is small becomes zero. *)
Theorem C91_type_refuted : exists x y, 0 <= x /\ is_float Double x /\ 0 < y /\ is_float Double y /\
  compute_serial None [Some [x]] = (Single, Fin 1) /\ compute_serial (Some [x]) [None] = (Double, Fin x) /\ x <> 1 /\
  compute_serial None [Some [y]] = (Single, Fin 0) /\ compute_serial (Some [y]) [None] = (Double, Fin y).
Proof. exact type_refuted_aux. Qed.
Print Assumptions C91_type_refuted.

(** ** C92 *)

(** The mean of fluxes between zero and one is between zero and one, in whatever order they are added, for up to 2^24 or 2^53 pixels. *)
Theorem C92_range : forall p t, Forall (in_unit p) (leaves t) -> INR (length (leaves t)) <= / unit p -> exists v, mean_of p t = Fin v /\ 0 <= v <= 1.
Proof. exact mean_range_aux. Qed.
Print Assumptions C92_range.

Theorem C92_transparent : forall p t, Forall (eq (Fin 1)) (leaves t) -> INR (length (leaves t)) <= / unit p -> mean_of p t = Fin 1.
Proof. exact mean_ones_aux. Qed.
Print Assumptions C92_transparent.

Theorem C92_error : forall p t, Forall (in_unit p) (leaves t) -> INR (length (leaves t)) <= / unit p ->
  let n := length (leaves t) in let mean := total (map value (leaves t)) / INR n in
  exists v, mean_of p t = Fin v /\ (1 - unit p) ^ n * mean - tiny_half p <= v <= (1 + unit p) ^ n * mean + tiny_half p.
Proof. exact mean_error_aux. Qed.
Print Assumptions C92_error.

(** With more pixels an unabsorbed spectrum may have a mean flux above one. *)
Theorem C92_many_refuted : exists t, Forall (eq (Fin 1)) (leaves t) /\ exists v, mean_of Single t = Fin v /\ 1 < v.
Proof. exact mean_many_aux. Qed.
Print Assumptions C92_many_refuted.

(** ** C93 *)

(** Whatever is added in whatever order, the factor is never zero, negative or minus infinity. *)
Theorem C93_positive : forall run d tol fuel r, 0 < tol -> get_mean_flux_scale run d tol fuel = Some r -> (exists x, r = Fin x /\ 0 < x) \/ r = PInf \/ r = NaN.
Proof. exact positive_aux. Qed.
Print Assumptions C93_positive.

(** A finite factor differs from the one before by the tolerance at most, up to rounding. *)
Theorem C93_stop : forall run d tol fuel x, 0 < tol < 1 -> get_mean_flux_scale run d tol fuel = Some (Fin x) ->
  exists k s, 0 < s /\ next_scale d s (run k s) = Fin x /\
    (1 - unit Double) * Rabs (x - s) - tiny_half Double <= (1 + unit Double) * (tol * x) + tiny_half Double.
Proof. exact stop_aux. Qed.
Print Assumptions C93_stop.

(** NaN is only returned if no pixel in use weighs anything, and the sum of the fluxes is exactly what is wanted. *)
Theorem C93_nan : forall expf tau thresh run d tol fuel, good_exp expf -> Forall (fun t => 0 <= t) tau -> thresh <= 2 ^ 100 -> 0 <= d <= 1 -> INR (length tau) <= 2 ^ 53 -> 0 < tol ->
  passes expf tau thresh run -> get_mean_flux_scale run d tol fuel = Some NaN ->
  exists k s, 0 < s /\ eval Double (p_flux (run k s)) = Fin (rnd Double (d * INR (length (used thresh tau)))) /\
    forall t, In t (used thresh tau) -> exists x, transmitted expf s t = Fin x /\ rnd Double (x * t) = 0.
Proof. exact nan_aux. Qed.
Print Assumptions C93_nan.

(** All pixels above the threshold: NaN. *)
Theorem C93_masked : forall expf tau thresh run d tol fuel, passes expf tau thresh run -> used thresh tau = [] -> get_mean_flux_scale run d tol (S fuel) = Some NaN.
Proof. exact masked_aux. Qed.
Print Assumptions C93_masked.

(** No absorption in any pixel in use: infinity. *)
Theorem C93_clear : forall expf tau thresh run d tol fuel, good_exp expf -> passes expf tau thresh run -> 0 < tol -> 0 <= d <= 1 - 2 * unit Double ->
  INR (length (used thresh tau)) <= 2 ^ 53 -> used thresh tau <> [] -> Forall (eq 0) (used thresh tau) -> get_mean_flux_scale run d tol (S fuel) = Some PInf.
Proof. exact clear_aux. Qed.
Print Assumptions C93_clear.

(** Two orders of the additions give two factors, with an exponential that is rounded correctly. *)
Theorem C93_order_refuted : exists tau run run', Forall (fun t => 0 <= t /\ is_float Double t) tau /\ passes rounded_exp tau 100 run /\ passes rounded_exp tau 100 run' /\
  exists a b, get_mean_flux_scale run (/ 4) 1 1 = Some (Fin a) /\ get_mean_flux_scale run' (/ 4) 1 1 = Some (Fin b) /\ a < b.
Proof. exact order_seen_aux. Qed.
Print Assumptions C93_order_refuted.

(** ** Cases *)

Lemma one_proper : forall segs, Forall (eq 1) (all_added segs) -> proper segs.
Proof. intros segs F. unfold proper. eapply Forall_impl; [|exact F]. intros c <-. split; [lra|apply format_is_float, float_1]. Qed.

Lemma small_pow : forall p n, (n <= 10)%nat -> (1 + unit p) ^ n <= 1024.
Proof.
  intros p n H. pose proof (unit_pos p). apply Rle_trans with (2 ^ n); [apply pow_incr; lra|]. apply Rle_trans with (2 ^ 10); [apply Rle_pow; [lra|exact H]|lra].
Qed.

Example C91_serial_case : proper [Some [1; 1]; None; Some [1]] /\
  (1 + unit Double) ^ (length (all_added [Some [1; 1]; None; Some [1]]) + 2) * total (all_added [Some [1; 1]; None; Some [1]]) < top Double.
Proof.
  split; [apply one_proper; repeat constructor|]. match goal with |- context [_ ^ ?n] => change n with 5%nat end. pose proof (small_pow Double 5 ltac:(lia)).
  replace (total (all_added [Some [1; 1]; None; Some [1]])) with 3 by (cbn; lra). rewrite top_bpow. assert (bpow radix2 20 < bpow radix2 (emax Double)) by (apply bpow_lt; reflexivity).
  change (bpow radix2 20) with 1048576 in *. lra.
Qed.

Example C91_ranks_case : let ranks := [(None, [Some [1]]); (Some [1], [])] in proper (segments ranks) /\
  (exists t out, compute_mpi ranks t out) /\
  (1 + unit Double) ^ (2 + 3) * (1 + unit Single) ^ (3 + 2) * (2 + INR 3 * tiny_half Single) < top Single.
Proof.
  cbv zeta. split; [apply one_proper; repeat constructor|]. split.
  - exists (Node (Leaf (cast Single (snd (rank_sum None [Some [1]])))) (Leaf (cast Single (snd (rank_sum (Some [1]) []))))). eexists. split; [apply Permutation_refl|reflexivity].
  - pose proof (small_pow Double 5 ltac:(lia)). pose proof (small_pow Single 5 ltac:(lia)). cbn [Nat.add]. pose proof (unit_pos Double). pose proof (unit_pos Single).
    pose proof (pow_R1_Rle (1 + unit Double) 5 ltac:(lra)). pose proof (pow_R1_Rle (1 + unit Single) 5 ltac:(lra)).
    assert (T : tiny_half Single < 1). { rewrite tiny_bpow. assert (bpow radix2 (emin Single) < bpow radix2 0) by (apply bpow_lt; reflexivity). change (bpow radix2 0) with 1 in *. lra. }
    pose proof (tiny_pos Single). replace (INR 3) with 3 by (cbn; lra). rewrite top_bpow. assert (B : bpow radix2 30 < bpow radix2 (emax Single)) by (apply bpow_lt; reflexivity).
    change (bpow radix2 30) with 1073741824 in B. set (a := (1 + unit Double) ^ 5) in *. set (b := (1 + unit Single) ^ 5) in *.
    assert (a * b <= 1024 * 1024) by (apply Rmult_le_compat; lra). assert (0 <= a * b) by (apply Rmult_le_pos; lra).
    apply Rle_lt_trans with (a * b * 5); [apply Rmult_le_compat_l; lra|lra].
Qed.

Example C91_monotone_case : raised_segment (Some [1]) (Some [2; 3]) /\ Forall2 raised_segment [None] [None].
Proof. split; [apply raised_more; [lra|]; apply raised_new; [lra|]; constructor|repeat constructor]. Qed.

Example C92_case : Forall (in_unit Double) (leaves (Node (Leaf (Fin 1)) (Leaf (Fin 0)))) /\ INR (length (leaves (Node (Leaf (Fin 1)) (Leaf (Fin 0))))) <= / unit Double.
Proof.
  split.
  - constructor; [exists 1; split; [reflexivity|split; [apply format_is_float, float_1|lra]]|]. constructor; [exists 0; split; [reflexivity|split; [apply format_is_float, format_0|lra]]|constructor].
  - rewrite <- two_bits. apply Rle_trans with (bpow radix2 1); [cbn; lra|apply bpow_le; cbn; lia].
Qed.

(** A pass with a finite result. *)
Definition half_exp (x : R) : R := if Req_EM_T x 0 then 1 else / 2.
Lemma half_float : format Double (/ 2).
Proof. change (/ 2) with (bpow radix2 (-1)). apply format_bpow. cbn; lia. Qed.
Example C93_exp_case : good_exp half_exp.
Proof.
  split; [unfold half_exp; destruct (Req_EM_T 0 0); lra|]. intros x _. unfold half_exp. destruct (Req_EM_T x 0); (split; [lra|]); apply format_is_float; [apply float_1|apply half_float].
Qed.
Definition one_run (k : nat) (s : R) : pass := mkPass (Leaf (transmitted half_exp s 1)) (Leaf (fmul Double (transmitted half_exp s 1) (Fin 1))) 1.
Example C93_case : passes half_exp [1] 100 one_run /\ get_mean_flux_scale one_run (/ 2) (/ 4) 1 = Some (Fin 1).
Proof.
  split.
  - intros k s Ps. unfold one_pass. cbn [filter]. destruct (Rlt_dec 100 1); [lra|]. split; [exists 0%nat|split; [exists 0%nat|reflexivity]]; cbn [one_run p_flux p_tau leaves map app repeat]; apply Permutation_refl.
  - assert (T : transmitted half_exp 1 1 = Fin (/ 2)).
    { unfold transmitted. replace (- (1) * 1) with (- (1)) by ring. assert (E : rnd Double (- (1)) = - (1)) by (rewrite rnd_opp, (rnd_id _ _ (float_1 Double)); reflexivity).
      rewrite finite_is; rewrite E.
      - unfold half_exp. destruct (Req_EM_T (- (1)) 0); [lra|reflexivity].
      - rewrite Rabs_Ropp, Rabs_R1. change 1 with (bpow radix2 0). apply bpow_lt. reflexivity. }
    unfold get_mean_flux_scale. cbn [scale_loop]. unfold next_scale, one_run. cbn [p_flux p_tau p_used eval INR]. rewrite T. cbn [fmul]. rewrite !Rmult_1_r.
    rewrite (finite_exact Double (/ 2)) by (try lra; apply half_float). cbn [fsub fneg fadd]. rewrite Rplus_opp_r, finite_exact by (try lra; apply format_0). cbn [fdiv].
    destruct (Req_EM_T (/ 2) 0); [lra|]. unfold Rdiv. rewrite Rmult_0_l, finite_exact by (try lra; apply format_0). cbn [fadd]. rewrite Rplus_0_r, finite_exact by (try lra; apply float_1).
    cbn [fle flt]. destruct (Rlt_dec 0 1); [|lra]. cbn [negb fmul fsub fneg fadd]. rewrite Rmult_1_r, Rplus_opp_r.
    rewrite (finite_exact Double (/ 4)) by (try lra; change (/ 4) with (bpow radix2 (-2)); apply format_bpow; cbn; lia). rewrite finite_exact by (try lra; apply format_0).
    cbn [fabs flt]. rewrite Rabs_R0. destruct (Rlt_dec (/ 4) 0); [lra|]. reflexivity.
Qed.

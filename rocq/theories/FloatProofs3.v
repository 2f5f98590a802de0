(** Proofs for C91 and C93: splits of the same contributions, and the rescaling loop. *)
From Coq Require Import List Bool ZArith Reals Lra Lia Permutation.
From Flocq Require Import Core Plus_error Relative.
From Verif Require Import FloatModel FloatSpec FloatProofs FloatProofs2.
Import ListNotations.
Local Open Scope R_scope.

Lemma split_aux : forall cs rest cs' rest' n, proper (Some cs :: rest) ->
  Permutation (all_added (Some cs :: rest)) (all_added (Some cs' :: rest')) ->
  (length (all_added (Some cs :: rest)) + length rest <= n)%nat -> (length (all_added (Some cs :: rest)) + length rest' <= n)%nat ->
  let x := total (all_added (Some cs :: rest)) in (1 + unit Double) ^ n * x < top Double ->
  exists v v', compute_serial (Some cs) rest = (Double, Fin v) /\ compute_serial (Some cs') rest' = (Double, Fin v') /\
    Rabs (v - v') <= 2 * ((1 + unit Double) ^ n - 1) * x.
Proof.
  intros cs rest cs' rest' n F P L L' x B. assert (X : 0 <= x) by now apply total_nonneg. pose proof (unit_pos Double) as U.
  assert (M : forall k, (k <= n)%nat -> (1 + unit Double) ^ k * x <= (1 + unit Double) ^ n * x) by (intros k K; apply Rmult_le_compat_r; [exact X|apply Rle_pow; [lra|exact K]]).
  assert (F' : proper (Some cs' :: rest')). { unfold proper in *. rewrite Forall_forall in *. intros c I. apply F. apply (Permutation_in c (Permutation_sym P) I). }
  destruct (serial_aux cs rest F) as (v & E & _ & A). { eapply Rle_lt_trans; [apply M; exact L|exact B]. }
  destruct (serial_aux cs' rest' F') as (v' & E' & _ & A'). { rewrite <- (Permutation_length P), <- (total_perm _ _ P). eapply Rle_lt_trans; [apply M; exact L'|exact B]. }
  exists v, v'. split; [exact E|]. split; [exact E'|]. rewrite <- (Permutation_length P), <- (total_perm _ _ P) in A'. fold x in A, A'.
  pose proof (M _ L). pose proof (M _ L'). replace (v - v') with ((v - x) - (v' - x)) by ring. eapply Rle_trans; [apply Rabs_triang|]. rewrite Rabs_Ropp. lra.
Qed.

(** ** The rescaling loop *)

Lemma tiny_scale : 0 < rnd Double (/ 10000000000).
Proof.
  pose proof (rnd_le Double (bpow radix2 (-34)) (/ 10000000000) ltac:(change (bpow radix2 (-34)) with (/ 17179869184); lra)) as L.
  rewrite rnd_id in L by (apply format_bpow; cbn; lia). pose proof (bpow_gt_0 radix2 (-34)). lra.
Qed.

Definition proper_scale (a : fl) : Prop := match a with Fin x => 0 < x | PInf | NaN => True | NInf => False end.

Lemma next_positive : forall d s q, proper_scale (next_scale d s q).
Proof.
  intros d s q. unfold next_scale. pose proof tiny_scale. set (new := fadd Double _ _). destruct new as [x| | |]; cbn; auto.
  destruct (Rlt_dec 0 x); cbn; auto.
Qed.

(** The loop does not go on with an infinite factor, nor with a NaN. *)
Lemma again_finite : forall tol s new, 0 < tol -> proper_scale new -> flt (fmul Double (Fin tol) new) (fabs (fsub Double new (Fin s))) = true -> exists x, new = Fin x.
Proof.
  intros tol s new T P H. destruct new as [x| | |]; cbn in *; try contradiction; try discriminate; eauto.
  destruct (Req_EM_T tol 0); [lra|]. unfold positive in H. destruct (Rlt_dec 0 tol); [discriminate|lra].
Qed.

(** What ends the loop. *)
Lemma loop_ends : forall run d tol fuel k s r, 0 < tol -> 0 < s -> scale_loop run d tol fuel k s = Some r ->
  exists k' s', 0 < s' /\ r = next_scale d s' (run k' s') /\ flt (fmul Double (Fin tol) r) (fabs (fsub Double r (Fin s'))) = false.
Proof.
  intros run d tol fuel. induction fuel as [|fuel IH]; intros k s r T Ps E; cbn [scale_loop] in E; [discriminate|].
  destruct (flt _ _) eqn:Q.
  - pose proof (next_positive d s (run k s)) as P. destruct (again_finite tol s _ T P Q) as (x & Ex). rewrite Ex in *. apply (IH (S k) x r T P E).
  - injection E as <-. exists k, s. auto.
Qed.

Lemma positive_aux : forall run d tol fuel r, 0 < tol -> get_mean_flux_scale run d tol fuel = Some r -> (exists x, r = Fin x /\ 0 < x) \/ r = PInf \/ r = NaN.
Proof.
  intros run d tol fuel r T E. destruct (loop_ends _ _ _ _ _ _ _ T Rlt_0_1 E) as (k & s & _ & -> & _). pose proof (next_positive d s (run k s)) as P.
  destruct (next_scale d s (run k s)); cbn in P; try contradiction; eauto.
Qed.

Lemma rnd_opp : forall p x, rnd p (- x) = - rnd p x.
Proof. intros p x. apply round_NE_opp. Qed.

Lemma rnd_abs : forall p x, Rabs (rnd p x) = rnd p (Rabs x).
Proof.
  intros p x. destruct (Rle_dec 0 x).
  - rewrite (Rabs_pos_eq x) by lra. apply Rabs_pos_eq. now apply rnd_nonneg.
  - rewrite (Rabs_left x) by lra. rewrite rnd_opp. apply Rabs_left1. rewrite <- (rnd_0 p). apply rnd_le. lra.
Qed.

Lemma finite_top : forall p x y, finite p x = Fin y -> y = rnd p x /\ Rabs y < bpow radix2 (emax p).
Proof.
  intros p x y E. unfold finite in E. destruct (Rle_dec _ _); [discriminate|]. destruct (Rle_dec _ _); [discriminate|]. injection E as <-.
  split; [reflexivity|]. apply Rabs_def1; lra.
Qed.

Lemma finite_is : forall p x, Rabs (rnd p x) < bpow radix2 (emax p) -> finite p x = Fin (rnd p x).
Proof.
  intros p x H. apply Rabs_def2 in H as (A & B). unfold finite. destruct (Rle_dec _ _); [lra|]. destruct (Rle_dec _ _); [lra|]. reflexivity.
Qed.

(** How close the last two factors are. *)
Lemma stop_aux : forall run d tol fuel x, 0 < tol < 1 -> get_mean_flux_scale run d tol fuel = Some (Fin x) ->
  exists k s, 0 < s /\ next_scale d s (run k s) = Fin x /\
    (1 - unit Double) * Rabs (x - s) - tiny_half Double <= (1 + unit Double) * (tol * x) + tiny_half Double.
Proof.
  intros run d tol fuel x (T & T1) E. destruct (loop_ends _ _ _ _ _ _ _ T Rlt_0_1 E) as (k & s & Ps & Er & Q). exists k, s. split; [exact Ps|]. split; [now symmetry|].
  pose proof (next_positive d s (run k s)) as P. rewrite <- Er in P. cbn in P. cbn [fmul fsub fneg fadd] in Q.
  assert (P' : 0 <= tol * x) by nra. pose proof (rnd_any Double (tol * x) P') as (_ & U). pose proof (rnd_any Double (Rabs (x - s)) (Rabs_pos _)) as (L & _).
  rewrite <- rnd_abs in L. replace (x + - s) with (x - s) in Q by ring.
  destruct (finite_cases Double (tol * x) P') as [E1|(E1 & Big)].
  - rewrite E1 in Q. destruct (finite Double (x - s)) as [y| | |] eqn:E2.
    + apply finite_top in E2 as (-> & _). cbn in Q. destruct (Rlt_dec (rnd Double (tol * x)) (Rabs (rnd Double (x - s)))); [discriminate|]. lra.
    + discriminate.
    + discriminate.
    + unfold finite in E2. destruct (Rle_dec _ _); [discriminate|]. destruct (Rle_dec _ _); discriminate.
  - (* tol * x < x is not too large *)
    exfalso. pose proof (rnd_le Double (tol * x) x ltac:(nra)) as V.
    assert (W : rnd Double x < bpow radix2 (emax Double)).
    { clear - Er P. unfold next_scale in Er. set (new := fadd Double _ _) in Er.
      assert (Fx : exists z, Fin x = finite Double z \/ x = rnd Double (/ 10000000000)).
      { destruct (fle new (Fin 0)); [exists 0; right; congruence|]. unfold new in Er. destruct (fdiv _ _ _) as [z| | |]; cbn [fadd] in Er; try discriminate. exists (s + z). now left. }
      destruct Fx as (z & [Fz|Fz]).
      - symmetry in Fz. apply finite_top in Fz as (-> & B). rewrite rnd_id by apply rnd_format. apply Rabs_def2 in B. lra.
      - rewrite Fz, rnd_id by apply rnd_format. pose proof (rnd_le Double (/ 10000000000) 1 ltac:(lra)) as O. rewrite (rnd_id _ 1 (float_1 _)) in O.
        assert (bpow radix2 0 < bpow radix2 (emax Double)) by (apply bpow_lt; reflexivity). change (bpow radix2 0) with 1 in *. lra. }
    lra.
Qed.

(** *** The sums *)

Lemma transmitted_range : forall expf scale t, good_exp expf -> 0 < scale -> 0 <= t -> exists x, transmitted expf scale t = Fin x /\ format Double x /\ 0 <= x <= 1.
Proof.
  intros expf scale t (_ & G) S T. unfold transmitted. assert (N : rnd Double (- scale * t) <= 0) by (rewrite <- (rnd_0 Double); apply rnd_le; nra).
  pose proof (bpow_gt_0 radix2 (emax Double)). unfold finite. destruct (Rle_dec _ _); [lra|]. destruct (Rle_dec _ _).
  - exists 0. repeat split; try lra. apply format_0.
  - destruct (G _ N) as (A & B). eexists; split; [reflexivity|]. split; [now apply format_is_float|exact A].
Qed.

Definition e100 : Z := 100.

Lemma product_range : forall x t, format Double x -> 0 <= x <= 1 -> 0 <= t <= bpow radix2 e100 ->
  exists y, fmul Double (Fin x) (Fin t) = Fin y /\ y = rnd Double (x * t) /\ format Double y /\ 0 <= y <= bpow radix2 e100.
Proof.
  intros x t F X T. cbn [fmul]. assert (P : 0 <= x * t <= bpow radix2 e100). { split; [apply Rmult_le_pos; lra|]. apply Rle_trans with (1 * t); [apply Rmult_le_compat_r; lra|lra]. } pose proof (rnd_le Double _ _ (proj2 P)) as U.
  rewrite (rnd_id Double (bpow radix2 e100)) in U by (apply format_bpow; unfold e100; cbn; lia). pose proof (rnd_nonneg Double _ (proj1 P)).
  exists (rnd Double (x * t)). split; [|split; [reflexivity|split; [apply rnd_format|lra]]]. apply finite_fin; [lra|]. rewrite top_bpow.
  eapply Rle_lt_trans; [exact U|]. apply bpow_lt. reflexivity.
Qed.

Lemma eval_zero : forall p t s, Forall (fun a => exists x, a = Fin x /\ format p x /\ 0 <= x) (leaves t) -> eval p t = Fin s -> format p s /\ 0 <= s /\ (s = 0 -> Forall (eq (Fin 0)) (leaves t)).
Proof.
  intros p t. induction t as [a|l IHl r IHr]; intros s F E; cbn [leaves eval] in *.
  - apply Forall_inv in F as (x & Ex & Fx & Px). rewrite E in Ex. injection Ex as <-. rewrite E. split; [exact Fx|]. split; [exact Px|]. intros ->. repeat constructor.
  - apply Forall_app in F as (F1 & F2). destruct (eval p l) as [x| | |], (eval p r) as [y| | |]; cbn [fadd] in E; try discriminate.
    destruct (IHl x F1 eq_refl) as (Fx & Px & Zx). destruct (IHr y F2 eq_refl) as (Fy & Py & Zy). apply finite_top in E as (-> & _).
    split; [apply rnd_format|]. split; [apply rnd_nonneg; lra|]. intros Z. pose proof (rnd_sum p x y Fx Fy Px Py) as (L & _). pose proof (unit_pos p).
    assert (x + y <= 0) by nra. apply Forall_app. split; [apply Zx|apply Zy]; lra.
Qed.

Lemma weighted : forall (f : R -> fl) (l : list R) e t threads, Permutation (leaves t) (map f l ++ repeat (Fin 0) threads) ->
  Forall (fun x => exists y, f x = Fin y /\ format Double y /\ 0 <= y <= bpow radix2 e) l -> (0 <= e)%Z -> (e + 53 < 1024)%Z -> INR (length l) <= bpow radix2 53 ->
  exists s, eval Double t = Fin s /\ 0 <= s <= INR (length l) * bpow radix2 e /\ (s = 0 -> forall x, In x l -> f x = Fin 0).
Proof.
  intros f l e t threads P F E M B. set (w0 := map (fun x => (f x, 1%nat)) l ++ repeat (Fin 0, 0%nat) threads).
  assert (Q : Permutation (leaves t) (map fst w0)).
  { unfold w0. rewrite map_app, map_map. replace (map fst (repeat (Fin 0, 0%nat) threads)) with (repeat (Fin 0) threads); [exact P|]. clear. induction threads as [|k IH]; cbn; congruence. }
  assert (W : wsum w0 = length l).
  { unfold w0. rewrite wsum_app. replace (wsum (repeat (Fin 0, 0%nat) threads)) with 0%nat by (clear; unfold wsum; induction threads; cbn; congruence).
    rewrite Nat.add_0_r. clear. induction l as [|x l IH]; cbn [map wsum fold_right snd length]; [reflexivity|]. unfold wsum in IH. rewrite IH. reflexivity. }
  assert (F0 : Forall (below Double e) w0).
  { unfold w0. apply Forall_app. split.
    - rewrite Forall_map. eapply Forall_impl; [|exact F]. intros x (y & Ey & Fy & Hy). exists y. cbn [fst snd]. split; [exact Ey|]. split; [exact Fy|]. change (IZR (Z.of_nat 1)) with 1. lra.
    - clear. induction threads as [|k IH]; cbn [repeat]; constructor; [|exact IH]. exists 0. cbn [fst snd]. split; [reflexivity|]. split; [apply format_0|].
      change (IZR (Z.of_nat 0)) with 0. lra. }
  destruct (Permutation_map_inv _ _ Q) as (ws & L & K).
  destruct (eval_count Double e E ltac:(cbn; lia) t ws L) as (s & Es & Fs & Hs).
  - rewrite Forall_forall in *. intros w I. apply F0. apply (Permutation_in w (Permutation_sym K) I).
  - rewrite <- (wsum_perm _ _ K), W, <- INR_IZR_INZ. exact B.
  - rewrite <- (wsum_perm _ _ K), W, <- INR_IZR_INZ in Hs. exists s. split; [exact Es|]. split; [exact Hs|]. intros Z x I.
    assert (FL : Forall (fun a => exists x, a = Fin x /\ format Double x /\ 0 <= x) (leaves t)).
    { rewrite L. rewrite Forall_map. rewrite Forall_forall in *. intros w J. destruct (F0 w) as (y & A & Bf & C); [apply (Permutation_in w (Permutation_sym K) J)|].
      exists y. split; [exact A|]. split; [exact Bf|lra]. }
    destruct (eval_zero Double t s FL Es) as (_ & _ & Zs). specialize (Zs Z). rewrite Forall_forall in Zs. symmetry. apply Zs.
    apply (Permutation_in _ (Permutation_sym P)). apply in_or_app. left. now apply in_map.
Qed.

Lemma one_pass_sums : forall expf tau thresh scale q, good_exp expf -> Forall (fun t => 0 <= t) tau -> thresh <= bpow radix2 e100 -> 0 < scale ->
  INR (length tau) <= bpow radix2 53 -> one_pass expf tau thresh scale q ->
  p_used q = length (used thresh tau) /\
  exists s w, eval Double (p_flux q) = Fin s /\ eval Double (p_tau q) = Fin w /\ 0 <= s <= INR (length (used thresh tau)) /\ 0 <= w /\
    (w = 0 -> forall t, In t (used thresh tau) -> exists x, transmitted expf scale t = Fin x /\ rnd Double (x * t) = 0).
Proof.
  intros expf tau thresh scale q G F TH S B ((k1 & P1) & (k2 & P2) & U). split; [exact U|].
  cbn [fmul] in P1. fold (used thresh tau) in P1, P2, U. change (Permutation (leaves (p_flux q)) (map (transmitted expf scale) (used thresh tau) ++ repeat (Fin 0) k1)) in P1.
  assert (FU : Forall (fun t => 0 <= t <= bpow radix2 e100) (used thresh tau)).
  { rewrite Forall_forall in *. unfold used. intros t I. apply filter_In in I as (I & K). destruct (Rlt_dec thresh t); [discriminate|]. split; [now apply F|lra]. }
  assert (BU : INR (length (used thresh tau)) <= bpow radix2 53).
  { eapply Rle_trans; [|exact B]. apply le_INR. unfold used. clear. induction tau as [|t l IH]; cbn; [lia|]. destruct (Rlt_dec thresh t); cbn; lia. }
  destruct (weighted _ _ 0 _ _ P1) as (s & Es & Hs & _); [|lia|lia|exact BU|].
  { eapply Forall_impl; [|exact FU]. intros t T. destruct (transmitted_range expf scale t G S ltac:(lra)) as (x & Ex & Fx & Hx). exists x. change (bpow radix2 0) with 1. auto. }
  destruct (weighted _ _ e100 _ _ P2) as (w & Ew & Hw & Zw); [|unfold e100; lia|unfold e100; lia|exact BU|].
  { eapply Forall_impl; [|exact FU]. intros t T. change (match fmul Double (Fin (- scale)) (Fin t) with Fin x => Fin (expf x) | PInf => PInf | _ => Fin 0 end) with (transmitted expf scale t). destruct (transmitted_range expf scale t G S ltac:(lra)) as (x & Ex & Fx & Hx). rewrite Ex.
    destruct (product_range x t Fx Hx T) as (y & Ey & _ & Fy & Hy). exists y. auto. }
  exists s, w. split; [exact Es|]. split; [exact Ew|]. change (bpow radix2 0) with 1 in Hs. rewrite Rmult_1_r in Hs. split; [exact Hs|]. split; [lra|].
  intros Z t I. specialize (Zw Z t I). change (match fmul Double (Fin (- scale)) (Fin t) with Fin x => Fin (expf x) | PInf => PInf | _ => Fin 0 end) with (transmitted expf scale t) in Zw. rewrite Forall_forall in FU. specialize (FU t I).
  destruct (transmitted_range expf scale t G S ltac:(lra)) as (x & Ex & Fx & Hx). exists x. split; [exact Ex|]. rewrite Ex in Zw.
  destruct (product_range x t Fx Hx FU) as (y & Ey & Ry & _). rewrite Ey in Zw. injection Zw as ->. now symmetry.
Qed.

(** Multiplying by the number of pixels does not overflow. *)
Lemma wanted_finite : forall d n, 0 <= d <= 1 -> INR n <= bpow radix2 53 -> fmul Double (Fin d) (Fin (INR n)) = Fin (rnd Double (d * INR n)) /\ 0 <= rnd Double (d * INR n) <= INR n.
Proof.
  intros d n D B. cbn [fmul]. pose proof (pos_INR n) as N. assert (P : 0 <= d * INR n <= INR n) by nra.
  pose proof (format_int Double n 0 ltac:(lia)) as Fn. rewrite <- INR_IZR_INZ in Fn. change (bpow radix2 0) with 1 in Fn. rewrite Rmult_1_r in Fn. specialize (Fn B).
  pose proof (rnd_le Double _ _ (proj2 P)) as U. rewrite (rnd_id _ _ Fn) in U. pose proof (rnd_nonneg Double _ (proj1 P)). split; [|lra].
  apply finite_fin; [lra|]. rewrite top_bpow. eapply Rle_lt_trans; [exact U|]. eapply Rle_lt_trans; [exact B|]. apply bpow_lt. reflexivity.
Qed.

Lemma sub_finite : forall s w n, 0 <= s <= INR n -> 0 <= w <= INR n -> INR n <= bpow radix2 53 -> fsub Double (Fin s) (Fin w) = Fin (rnd Double (s - w)).
Proof.
  intros s w n S W B. cbn [fsub fneg fadd]. unfold Rminus. apply finite_is. rewrite rnd_abs.
  assert (A : Rabs (s + - w) <= bpow radix2 53) by (apply Rabs_le; lra). apply (rnd_le Double) in A.
  rewrite (rnd_id Double (bpow radix2 53)) in A by (apply format_bpow; cbn; lia). eapply Rle_lt_trans; [exact A|]. apply bpow_lt. reflexivity.
Qed.

(** A difference of numbers is zero only if they are equal. *)
Lemma sub_zero : forall p x y, format p x -> format p y -> rnd p (x - y) = 0 -> x = y.
Proof.
  intros p x y Fx Fy Z. assert (Fy' : format p (- y)) by (apply generic_format_opp; exact Fy).
  destruct (FLT_plus_error_N_ex radix2 (emin p) (bits p) (fun z => negb (Z.even z)) x (- y) Fx Fy') as (e & E & H).
  unfold rnd, Rminus in Z. rewrite H in Z. assert (Rabs e <= unit p).
  { eapply Rle_trans; [exact E|]. pose proof (unit_pos p) as U. unfold u_ro. rewrite unit_half. apply (Rmult_le_reg_r (1 + unit p)); [lra|]. unfold Rdiv. rewrite Rmult_assoc, Rinv_l, Rmult_1_r by lra. nra. }
  pose proof (unit_pos p). apply Rabs_le_inv in H0. apply Rmult_integral in Z as [Z|Z]; lra.
Qed.

Lemma next_nan : forall expf tau thresh run d k s, good_exp expf -> Forall (fun t => 0 <= t) tau -> thresh <= bpow radix2 e100 -> 0 <= d <= 1 -> INR (length tau) <= bpow radix2 53 ->
  passes expf tau thresh run -> 0 < s -> next_scale d s (run k s) = NaN ->
  eval Double (p_flux (run k s)) = Fin (rnd Double (d * INR (length (used thresh tau)))) /\
  forall t, In t (used thresh tau) -> exists x, transmitted expf s t = Fin x /\ rnd Double (x * t) = 0.
Proof.
  intros expf tau thresh run d k s G F TH D B W S E.
  destruct (one_pass_sums expf tau thresh s (run k s) G F TH S B (W k s S)) as (U & x & w & Ex & Ew & Hx & Pw & Zw).
  assert (BU : INR (length (used thresh tau)) <= bpow radix2 53).
  { eapply Rle_trans; [|exact B]. apply le_INR. unfold used. clear. induction tau as [|t l IH]; cbn; [lia|]. destruct (Rlt_dec thresh t); cbn; lia. }
  unfold next_scale in E. rewrite U, Ex, Ew in E. destruct (wanted_finite d _ D BU) as (Em & Hm). rewrite Em in E. rewrite (sub_finite _ _ _ Hx Hm BU) in E.
  cbn [fdiv] in E. destruct (Req_EM_T w 0) as [Zero|NZ].
  - split; [|now apply Zw]. rewrite Ex. f_equal. destruct (Req_EM_T (rnd Double (x - rnd Double (d * INR (length (used thresh tau))))) 0) as [Z|NZ'].
    + apply (sub_zero Double); [|apply rnd_format|exact Z].
      destruct (one_pass_sums expf tau thresh s (run k s) G F TH S B (W k s S)) as (_ & _ & _ & _). 
      destruct (W k s S) as ((k1 & P1) & _).
      assert (FL : Forall (fun a => exists x, a = Fin x /\ format Double x /\ 0 <= x) (leaves (p_flux (run k s)))).
      { rewrite Forall_forall. intros a I. apply (Permutation_in _ P1), in_app_or in I as [I|I].
        - apply in_map_iff in I as (t & <- & I). change (match fmul Double (Fin (- s)) (Fin t) with Fin x => Fin (expf x) | PInf => PInf | _ => Fin 0 end) with (transmitted expf s t). apply filter_In in I as (I & _). rewrite Forall_forall in F.
          destruct (transmitted_range expf s t G S (F t I)) as (y & Ey & Fy & Hy). exists y. rewrite Ey. repeat split; auto; lra.
        - apply repeat_spec in I as ->. exists 0. repeat split; try lra. apply format_0. }
      apply (eval_zero Double _ x FL Ex).
    + exfalso. unfold positive in E. destruct (Rlt_dec _ _); cbn in E; discriminate.
  - exfalso. revert E. match goal with |- context [finite Double ?z] => destruct (finite Double z) as [y| | |] eqn:Q end; cbn [fadd].
    + destruct (finite Double (s + y)) as [y'| | |] eqn:Q'; cbn; try discriminate. destruct (negb _); discriminate.
      unfold finite in Q'. destruct (Rle_dec _ _); [discriminate|]. destruct (Rle_dec _ _); discriminate.
    + cbn. discriminate.
    + cbn. discriminate.
    + unfold finite in Q. destruct (Rle_dec _ _); [discriminate|]. destruct (Rle_dec _ _); discriminate.
Qed.

Lemma nan_aux : forall expf tau thresh run d tol fuel, good_exp expf -> Forall (fun t => 0 <= t) tau -> thresh <= 2 ^ 100 -> 0 <= d <= 1 -> INR (length tau) <= 2 ^ 53 -> 0 < tol ->
  passes expf tau thresh run -> get_mean_flux_scale run d tol fuel = Some NaN ->
  exists k s, 0 < s /\ eval Double (p_flux (run k s)) = Fin (rnd Double (d * INR (length (used thresh tau)))) /\
    forall t, In t (used thresh tau) -> exists x, transmitted expf s t = Fin x /\ rnd Double (x * t) = 0.
Proof.
  intros expf tau thresh run d tol fuel G F TH D B T W E. destruct (loop_ends _ _ _ _ _ _ _ T Rlt_0_1 E) as (k & s & Ps & Er & _). exists k, s. split; [exact Ps|].
  apply (next_nan expf tau thresh run d k s G F); auto; [rewrite <- (bpow_pow 100) in TH; exact TH|rewrite <- (bpow_pow 53) in B; exact B].
Qed.

Lemma eval_exact : forall p t ws, leaves t = map fst ws -> Forall (fun w => fst w = Fin (INR (snd w))) ws -> INR (wsum ws) <= bpow radix2 (bits p) -> eval p t = Fin (INR (wsum ws)).
Proof.
  intros p. induction t as [a|l IHl r IHr]; intros ws L F B; cbn [leaves eval] in *.
  - destruct ws as [|w [|? ?]]; try discriminate. cbn [map] in L. injection L as ->. apply Forall_inv in F. rewrite F. cbn [wsum fold_right]. now rewrite Nat.add_0_r.
  - destruct (map_eq_app _ _ _ _ (eq_sym L)) as (w1 & w2 & -> & E1 & E2). apply Forall_app in F as (F1 & F2). rewrite wsum_app, plus_INR in *.
    pose proof (pos_INR (wsum w1)). pose proof (pos_INR (wsum w2)). rewrite (IHl w1), (IHr w2) by (auto; lra). cbn [fadd].
    pose proof (format_int p (wsum w1 + wsum w2) 0 ltac:(lia)) as Fn. rewrite <- INR_IZR_INZ, plus_INR in Fn. change (bpow radix2 0) with 1 in Fn. rewrite Rmult_1_r in Fn. specialize (Fn B).
    rewrite finite_fin; rewrite ?(rnd_id p _ Fn); auto; try lra. rewrite top_bpow. eapply Rle_lt_trans; [exact B|]. apply bpow_lt. destruct p; reflexivity.
Qed.

Lemma counted : forall (f : R -> fl) (l : list R) m t threads, (m <= 1)%nat -> Permutation (leaves t) (map f l ++ repeat (Fin 0) threads) ->
  Forall (fun x => f x = Fin (INR m)) l -> INR (length l) <= bpow radix2 53 -> eval Double t = Fin (INR (m * length l)).
Proof.
  intros f l m t threads M P F B. set (w0 := map (fun x => (f x, m)) l ++ repeat (Fin 0, 0%nat) threads).
  assert (Q : Permutation (leaves t) (map fst w0)).
  { unfold w0. rewrite map_app, map_map. replace (map fst (repeat (Fin 0, 0%nat) threads)) with (repeat (Fin 0) threads); [exact P|]. clear. induction threads as [|k IH]; cbn; congruence. }
  assert (W : wsum w0 = (m * length l)%nat).
  { unfold w0. rewrite wsum_app. replace (wsum (repeat (Fin 0, 0%nat) threads)) with 0%nat by (clear; unfold wsum; induction threads; cbn; congruence).
    rewrite Nat.add_0_r. clear. induction l as [|x l IH]; cbn [map wsum fold_right snd length]; [lia|]. unfold wsum in IH. rewrite IH. lia. }
  assert (F0 : Forall (fun w => fst w = Fin (INR (snd w))) w0).
  { unfold w0. apply Forall_app. split; [rewrite Forall_map; exact F|]. clear. induction threads as [|k IH]; cbn [repeat]; constructor; [reflexivity|exact IH]. }
  destruct (Permutation_map_inv _ _ Q) as (ws & L & K). rewrite (eval_exact Double t ws L).
  - now rewrite <- (wsum_perm _ _ K), W.
  - rewrite Forall_forall in *. intros w I. apply F0. apply (Permutation_in w (Permutation_sym K) I).
  - rewrite <- (wsum_perm _ _ K), W. eapply Rle_trans; [|exact B]. apply le_INR. nia.
Qed.

Lemma unit_exp_zero : forall expf, good_exp expf -> transmitted expf 1 0 = Fin 1.
Proof.
  intros expf (E & _). unfold transmitted. replace (- (1) * 0) with 0 by ring. rewrite finite_exact by (try lra; apply format_0). now rewrite E.
Qed.

Lemma masked_aux : forall expf tau thresh run d tol fuel, passes expf tau thresh run -> used thresh tau = [] -> get_mean_flux_scale run d tol (S fuel) = Some NaN.
Proof.
  intros expf tau thresh run d tol fuel W U. unfold get_mean_flux_scale. cbn [scale_loop]. destruct (W 0%nat 1 Rlt_0_1) as ((k1 & P1) & (k2 & P2) & N).
  fold (used thresh tau) in P1, P2, N. rewrite U in P1, P2, N. unfold next_scale.
  assert (Z : forall t k, Permutation (leaves t) (map (fun _ : R => Fin 0) [] ++ repeat (Fin 0) k) -> eval Double t = Fin 0).
  { intros t k P. rewrite (counted (fun _ => Fin 0) [] 0 t k ltac:(lia) P ltac:(constructor)); [reflexivity|]. change (INR (length (@nil R))) with 0. apply bpow_ge_0. }
  rewrite (Z _ k1 P1), (Z _ k2 P2), N. cbn [length INR]. cbn [fmul]. rewrite Rmult_0_r, finite_exact by (try lra; apply format_0).
  cbn [fsub fneg fadd]. rewrite Ropp_0, Rplus_0_r, finite_exact by (try lra; apply format_0). cbn [fdiv]. destruct (Req_EM_T 0 0); [|lra]. reflexivity.
Qed.

Lemma clear_aux : forall expf tau thresh run d tol fuel, good_exp expf -> passes expf tau thresh run -> 0 < tol -> 0 <= d <= 1 - 2 * unit Double ->
  INR (length (used thresh tau)) <= 2 ^ 53 -> used thresh tau <> [] -> Forall (eq 0) (used thresh tau) -> get_mean_flux_scale run d tol (S fuel) = Some PInf.
Proof.
  intros expf tau thresh run d tol fuel G W T D B N0 Z. rewrite <- (bpow_pow 53) in B. change (Z.of_nat 53) with 53%Z in B.
  unfold get_mean_flux_scale. cbn [scale_loop]. destruct (W 0%nat 1 Rlt_0_1) as ((k1 & P1) & (k2 & P2) & N).
  fold (used thresh tau) in P1, P2, N. change (Permutation (leaves (p_flux (run 0%nat 1))) (map (transmitted expf 1) (used thresh tau) ++ repeat (Fin 0) k1)) in P1.
  change (Permutation (leaves (p_tau (run 0%nat 1))) (map (fun t => fmul Double (transmitted expf 1 t) (Fin t)) (used thresh tau) ++ repeat (Fin 0) k2)) in P2.
  set (n := length (used thresh tau)) in *.
  assert (E1 : eval Double (p_flux (run 0%nat 1)) = Fin (INR n)).
  { rewrite (counted _ _ 1 _ _ ltac:(lia) P1); [now rewrite Nat.mul_1_l| |exact B]. eapply Forall_impl; [|exact Z]. intros t <-. now rewrite unit_exp_zero. }
  assert (E2 : eval Double (p_tau (run 0%nat 1)) = Fin 0).
  { rewrite (counted _ _ 0 _ _ ltac:(lia) P2); [reflexivity| |exact B]. eapply Forall_impl; [|exact Z]. intros t <-. rewrite unit_exp_zero by exact G.
    cbn [fmul]. rewrite Rmult_0_r, finite_exact by (try lra; apply format_0). reflexivity. }
  pose proof (unit_pos Double) as U. destruct (wanted_finite d n ltac:(lra) B) as (Em & Hm). unfold next_scale. rewrite E1, E2, N, Em.
  assert (Pn : 1 <= INR n). { change 1 with (INR 1). apply le_INR. unfold n. destruct (used thresh tau); [congruence|cbn; lia]. }
  rewrite (sub_finite _ _ n) by (auto; lra).
  assert (Lt : rnd Double (d * INR n) < INR n).
  { pose proof (rnd_any Double (d * INR n) ltac:(apply Rmult_le_pos; lra)) as (_ & R1). assert (tiny_half Double < unit Double).
    { rewrite tiny_bpow, unit_bpow. assert (bpow radix2 (emin Double) < bpow radix2 (- bits Double)) by (apply bpow_lt; reflexivity). pose proof (bpow_gt_0 radix2 (emin Double)). lra. }
    assert (d * INR n <= (1 - 2 * unit Double) * INR n) by (apply Rmult_le_compat_r; lra). 
    assert ((1 + unit Double) * (d * INR n) <= (1 + unit Double) * ((1 - 2 * unit Double) * INR n)) by (apply Rmult_le_compat_l; lra). nra. }
  pose proof (format_int Double n 0 ltac:(lia)) as Fn. rewrite <- INR_IZR_INZ in Fn. change (bpow radix2 0) with 1 in Fn. rewrite Rmult_1_r in Fn. specialize (Fn B).
  assert (Pos : 0 < rnd Double (INR n - rnd Double (d * INR n))).
  { assert (0 <= rnd Double (INR n - rnd Double (d * INR n))) by (apply rnd_nonneg; lra).
    destruct (Req_EM_T (rnd Double (INR n - rnd Double (d * INR n))) 0) as [Q|Q]; [|lra]. apply (sub_zero Double) in Q; [lra|exact Fn|apply rnd_format]. }
  cbn [fdiv]. destruct (Req_EM_T 0 0); [|lra]. destruct (Req_EM_T (rnd Double (INR n - rnd Double (d * INR n))) 0); [lra|]. unfold positive. destruct (Rlt_dec _ _); [|lra].
  cbn [fadd fle flt negb]. cbn [fmul fsub fneg fadd fabs]. destruct (Req_EM_T tol 0); [lra|]. unfold positive. destruct (Rlt_dec 0 tol); [|lra]. reflexivity.
Qed.

(** *** The order of the additions is seen in the result *)

Lemma rounded_good : good_exp rounded_exp.
Proof.
  unfold good_exp, rounded_exp. split; [rewrite exp_0; apply rnd_id, float_1|]. intros x X.
  assert (E : 0 <= exp x <= 1). { split; [left; apply exp_pos|]. rewrite <- exp_0. destruct X as [X| ->]; [left; now apply exp_increasing|lra]. }
  split; [|apply format_is_float, rnd_format]. split; [apply rnd_nonneg; lra|]. rewrite <- (rnd_id Double 1 (float_1 Double)). apply rnd_le. lra.
Qed.

(** An optical depth whose flux is between 2^-54 and 2^-53. *)
Definition deep : R := rnd Double (53.5 * ln 2).
Definition faint : R := rounded_exp (- deep).

Lemma ln2_range : / 2 < ln 2 < 1.
Proof.
  split; [apply ln_lt_2|]. assert (H : 2 < exp 1). { pose proof (exp_ineq1 1 ltac:(lra)). lra. }
  rewrite <- (ln_exp 1). apply ln_increasing; lra.
Qed.

Lemma tiny_small : tiny_half Double < bpow radix2 (-1000).
Proof.
  rewrite tiny_bpow. assert (bpow radix2 (emin Double) < bpow radix2 (-1000)) by (apply bpow_lt; reflexivity). pose proof (bpow_gt_0 radix2 (emin Double)). lra.
Qed.
Lemma unit_small : unit Double < / 1000000.
Proof. rewrite unit_bpow. assert (bpow radix2 (- bits Double) < bpow radix2 (-20)) by (apply bpow_lt; reflexivity). change (bpow radix2 (-20)) with (/ 1048576) in *. lra. Qed.

Lemma deep_range : 53.4 * ln 2 < deep < 53.6 * ln 2.
Proof.
  pose proof ln2_range as L. unfold deep. pose proof (rnd_any Double (53.5 * ln 2) ltac:(nra)) as (A & B). pose proof (unit_small) as U. pose proof (unit_pos Double).
  pose proof tiny_small as T. assert (bpow radix2 (-1000) < bpow radix2 (-20)) by (apply bpow_lt; lia). change (bpow radix2 (-20)) with (/ 1048576) in *.
  split; nra.
Qed.

Lemma exp_ln2 : forall n : nat, exp (- (INR n * ln 2)) = / 2 ^ n.
Proof.
  intros n. rewrite exp_Ropp. f_equal. rewrite <- Rpower_pow by lra. reflexivity.
Qed.

Lemma faint_range : 1.1 * bpow radix2 (-54) < faint < 0.9 * bpow radix2 (-53).
Proof.
  unfold faint, rounded_exp. pose proof deep_range as D. pose proof ln2_range as L.
  assert (E54 : exp (- (54 * ln 2)) = bpow radix2 (-54)). { replace 54 with (INR 54) by (rewrite INR_IZR_INZ; reflexivity). rewrite exp_ln2. symmetry. apply (bpow_inv_pow 54). }
  assert (E53 : exp (- (53 * ln 2)) = bpow radix2 (-53)). { replace 53 with (INR 53) by (rewrite INR_IZR_INZ; reflexivity). rewrite exp_ln2. symmetry. apply (bpow_inv_pow 53). }
  pose proof (bpow_gt_0 radix2 (-54)) as P54. pose proof (bpow_gt_0 radix2 (-53)) as P53.
  assert (A : 1.15 * bpow radix2 (-54) < exp (- deep)).
  { apply Rlt_trans with (exp (- (54 * ln 2) + 0.4 * ln 2)); [|apply exp_increasing; lra]. rewrite exp_plus, E54. pose proof (exp_ineq1 (0.4 * ln 2) ltac:(lra)). nra. }
  assert (B : exp (- deep) < 0.84 * bpow radix2 (-53)).
  { apply Rlt_trans with (exp (- (53 * ln 2) + - (0.4 * ln 2))); [apply exp_increasing; lra|]. rewrite exp_plus, E53, exp_Ropp. pose proof (exp_ineq1 (0.4 * ln 2) ltac:(lra)).
    assert (/ exp (0.4 * ln 2) < / 1.2) by (apply Rinv_lt_contravar; [apply Rmult_lt_0_compat; lra|lra]). replace (/ 1.2) with (5 / 6) in * by lra. nra. }
  pose proof (rnd_any Double (exp (- deep)) ltac:(left; apply exp_pos)) as (C & F). pose proof unit_small as U. pose proof (unit_pos Double). pose proof tiny_small as T.
  assert (T' : bpow radix2 (-1000) < / 1024 * bpow radix2 (-54)). { change (/ 1024) with (bpow radix2 (-10)). rewrite <- bpow_plus. apply bpow_lt. reflexivity. }
  assert (T2 : bpow radix2 (-53) = 2 * bpow radix2 (-54)). { change (-53)%Z with (1 + -54)%Z. rewrite bpow_plus. reflexivity. }
  pose proof (exp_pos (- deep)). split; nra.
Qed.

Lemma faint_float : format Double faint.
Proof. apply rnd_format. Qed.
Lemma u54_u53 : u53 = 2 * bpow radix2 (-54).
Proof. unfold u53. change (-53)%Z with (1 + -54)%Z. rewrite bpow_plus. reflexivity. Qed.

Lemma rnd_1f : rnd Double (1 + faint) = 1.
Proof.
  pose proof faint_range as F. fold u53 in F. pose proof u53_small. pose proof (bpow_gt_0 radix2 (-54)). rewrite (rnd_at Double (1 + faint) 1); [|cbn; lia|].
  - change (- (1 - bits Double))%Z with 52%Z. change (1 - bits Double)%Z with (-52)%Z. rewrite (Znearest_imp _ _ (2 ^ 52)).
    + change (IZR (2 ^ 52)) with (bpow radix2 52). apply bpow_52_m52.
    + change (IZR (2 ^ 52)) with (bpow radix2 52). pose proof bpow_52_53 as Q. pose proof (bpow_gt_0 radix2 52). rewrite Rabs_pos_eq; nra.
  - rewrite Rabs_pos_eq by lra. change (bpow radix2 (1 - 1)) with 1. change (bpow radix2 1) with 2. lra.
Qed.

Lemma rnd_ff : rnd Double (faint + faint) = faint + faint.
Proof.
  apply rnd_id. apply format_is_float. destruct (proj2 (format_is_float Double faint) faint_float) as (m & e & E & H1 & H2). exists m, (e + 1)%Z. split; [|lia].
  rewrite E, !powerRZ_bpow, bpow_plus. change (bpow radix2 1) with 2. ring.
Qed.

Lemma rnd_1ff : rnd Double (1 + (faint + faint)) = 1 + (u53 + u53).
Proof.
  pose proof faint_range as F. fold u53 in F. pose proof u53_small. pose proof (bpow_gt_0 radix2 (-54)). pose proof u54_u53. rewrite (rnd_at Double _ 1); [|cbn; lia|].
  - change (- (1 - bits Double))%Z with 52%Z. change (1 - bits Double)%Z with (-52)%Z. pose proof bpow_52_53 as Q. pose proof (bpow_gt_0 radix2 52) as P. rewrite (Znearest_imp _ _ (2 ^ 52 + 1)).
    + rewrite plus_IZR. change (IZR (2 ^ 52)) with (bpow radix2 52). pose proof bpow_52_m52. assert (bpow radix2 (-52) = 2 * u53) by (unfold u53; change (-52)%Z with (1 + -53)%Z; rewrite bpow_plus; reflexivity). lra.
    + rewrite plus_IZR. change (IZR (2 ^ 52)) with (bpow radix2 52). apply Rabs_def1; nra.
  - rewrite Rabs_pos_eq by lra. change (bpow radix2 (1 - 1)) with 1. change (bpow radix2 1) with 2. lra.
Qed.

Definition pixels : list R := [0; deep; deep].
Definition parts (s t : R) : fl := fmul Double (transmitted rounded_exp s t) (Fin t).
Definition run_left (k : nat) (s : R) : pass :=
  mkPass (Node (Node (Leaf (transmitted rounded_exp s 0)) (Leaf (transmitted rounded_exp s deep))) (Leaf (transmitted rounded_exp s deep)))
    (Node (Leaf (parts s 0)) (Node (Leaf (parts s deep)) (Leaf (parts s deep)))) 3.
Definition run_right (k : nat) (s : R) : pass :=
  mkPass (Node (Leaf (transmitted rounded_exp s 0)) (Node (Leaf (transmitted rounded_exp s deep)) (Leaf (transmitted rounded_exp s deep))))
    (Node (Leaf (parts s 0)) (Node (Leaf (parts s deep)) (Leaf (parts s deep)))) 3.

Lemma deep_bounds : 26 < deep < 54.
Proof. pose proof deep_range. pose proof ln2_range. lra. Qed.

Lemma pixels_used : used 100 pixels = pixels.
Proof.
  pose proof deep_bounds. unfold used, pixels. cbn [filter]. destruct (Rlt_dec 100 0); [lra|]. destruct (Rlt_dec 100 deep); [lra|]. reflexivity.
Qed.

Lemma runs_pass : passes rounded_exp pixels 100 run_left /\ passes rounded_exp pixels 100 run_right.
Proof.
  split; intros k s Ps; unfold one_pass; cbv zeta; fold (used 100 pixels); rewrite pixels_used; (split; [|split; [|reflexivity]]); exists 0%nat; cbn [repeat]; rewrite app_nil_r; unfold pixels;
    cbn [map run_left run_right p_flux p_tau leaves app]; apply Permutation_refl.
Qed.

Lemma at_one : transmitted rounded_exp 1 0 = Fin 1 /\ transmitted rounded_exp 1 deep = Fin faint /\ parts 1 0 = Fin 0 /\ parts 1 deep = Fin (rnd Double (faint * deep)).
Proof.
  pose proof deep_bounds as D. pose proof faint_range as F. pose proof (bpow_gt_0 radix2 (-54)) as P. fold u53 in F. pose proof u53_small as U.
  assert (E1 : transmitted rounded_exp 1 0 = Fin 1) by apply unit_exp_zero, rounded_good.
  assert (E2 : transmitted rounded_exp 1 deep = Fin faint).
  { unfold transmitted. replace (- (1) * deep) with (- deep) by ring. assert (R1 : rnd Double (- deep) = - deep) by (rewrite rnd_opp; f_equal; apply rnd_id; unfold deep; apply rnd_format).
    rewrite finite_is; rewrite R1; [reflexivity|]. rewrite Rabs_Ropp, Rabs_pos_eq by lra. apply Rlt_trans with (bpow radix2 6); [change (bpow radix2 6) with 64; lra|apply bpow_lt; reflexivity]. }
  split; [exact E1|]. split; [exact E2|]. unfold parts. rewrite E1, E2. cbn [fmul]. rewrite Rmult_0_r, finite_exact by (try lra; apply format_0). split; [reflexivity|].
  apply finite_small; [nra|]. pose proof (rnd_any Double (faint * deep) ltac:(nra)) as (_ & B). pose proof unit_small. pose proof (unit_pos Double). pose proof tiny_small as T.
  assert (bpow radix2 (-1000) < bpow radix2 (-1)) by (apply bpow_lt; lia). change (bpow radix2 (-1)) with (/ 2) in *.
  assert (faint * deep < / 10 * 54). { apply Rle_lt_trans with (faint * 54); [nra|]. assert (u53 < bpow radix2 (-10)) by (unfold u53; apply bpow_lt; lia). change (bpow radix2 (-10)) with (/ 1024) in *. nra. }
  assert (0 <= faint * deep) by nra.
  assert (F2 : faint * deep < 1). { assert (u53 < bpow radix2 (-10)) by (unfold u53; apply bpow_lt; lia). change (bpow radix2 (-10)) with (/ 1024) in *. nra. }
  nra.
Qed.

Definition weight : R := rnd Double (faint * deep).
Lemma weight_range : bpow radix2 (-50) <= weight <= bpow radix2 (-47).
Proof.
  pose proof deep_bounds as D. pose proof faint_range as F. unfold weight.
  assert (A : bpow radix2 (-50) = 16 * bpow radix2 (-54)) by (change (-50)%Z with (4 + -54)%Z; rewrite bpow_plus; reflexivity).
  assert (B : bpow radix2 (-47) = 64 * bpow radix2 (-53)) by (change (-47)%Z with (6 + -53)%Z; rewrite bpow_plus; reflexivity).
  pose proof (bpow_gt_0 radix2 (-54)). pose proof (bpow_gt_0 radix2 (-53)). split.
  - rewrite <- (rnd_id Double (bpow radix2 (-50))) by (apply format_bpow; cbn; lia). apply rnd_le. rewrite A. nra.
  - rewrite <- (rnd_id Double (bpow radix2 (-47))) by (apply format_bpow; cbn; lia). apply rnd_le. rewrite B. nra.
Qed.

Lemma double_exact : forall x, format Double x -> rnd Double (x + x) = x + x.
Proof.
  intros x F. apply rnd_id. apply format_is_float. apply format_is_float in F as (m & e & E & H1 & H2). exists m, (e + 1)%Z. split; [|lia].
  rewrite E, !powerRZ_bpow, bpow_plus. change (bpow radix2 1) with 2. ring.
Qed.

(** The quotient: bounds that are good enough. *)
Lemma quotient_range : forall D, / 4 <= D <= / 2 -> bpow radix2 44 <= D / (weight + weight) <= bpow radix2 48.
Proof.
  intros D HD. destruct weight_range as (A & B). pose proof (bpow_gt_0 radix2 (-50)) as P.
  assert (E1 : bpow radix2 44 * bpow radix2 (-47) = / 8) by (rewrite <- bpow_plus; reflexivity). assert (E2 : bpow radix2 48 * bpow radix2 (-50) = / 4) by (rewrite <- bpow_plus; reflexivity).
  pose proof (bpow_gt_0 radix2 44). pose proof (bpow_gt_0 radix2 48). assert (W : 0 < weight + weight) by lra. split.
  - apply (Rmult_le_reg_r (weight + weight)); [exact W|]. unfold Rdiv. rewrite Rmult_assoc, Rinv_l by lra. nra.
  - apply (Rmult_le_reg_r (weight + weight)); [exact W|]. unfold Rdiv. rewrite Rmult_assoc, Rinv_l by lra. nra.
Qed.

Definition factor (D : R) : R := rnd Double (1 + rnd Double (D / (weight + weight))).

Lemma quotient_rnd : forall D, / 4 <= D <= / 2 -> bpow radix2 44 <= rnd Double (D / (weight + weight)) <= bpow radix2 48.
Proof.
  intros D HD. destruct (quotient_range D HD) as (A & B). apply (rnd_le Double) in A, B. rewrite rnd_id in A by (apply format_bpow; cbn; lia). rewrite (rnd_id Double (bpow radix2 48)) in B by (apply format_bpow; cbn; lia). lra.
Qed.

Lemma factor_range : forall D, / 4 <= D <= / 2 -> 1 <= factor D <= bpow radix2 49.
Proof.
  intros D HD. destruct (quotient_rnd D HD) as (A & B). pose proof (bpow_gt_0 radix2 44). unfold factor. split.
  - rewrite <- (rnd_id Double 1 (float_1 Double)) at 1. apply rnd_le. lra.
  - rewrite <- (rnd_id Double (bpow radix2 49)) by (apply format_bpow; cbn; lia). apply rnd_le. change 49%Z with (1 + 48)%Z. rewrite bpow_plus. change (bpow radix2 1) with 2.
    assert (1 <= bpow radix2 48) by (change 1 with (bpow radix2 0); apply bpow_le; lia). lra.
Qed.

Lemma loop_value : forall run S, (forall k, p_used (run k 1) = 3%nat) -> eval Double (p_flux (run 0%nat 1)) = Fin S -> eval Double (p_tau (run 0%nat 1)) = Fin (weight + weight) ->
  1 <= S <= 5 / 4 -> format Double (S - 3 / 4) -> get_mean_flux_scale run (/ 4) 1 1 = Some (Fin (factor (S - 3 / 4))).
Proof.
  intros run S U E1 E2 HS F. unfold get_mean_flux_scale. cbn [scale_loop]. unfold next_scale. rewrite E1, E2, U.
  assert (Fq : format Double (3 / 4)). { apply format_is_float. exists 3%Z, (-2)%Z. split; [rewrite powerRZ_bpow; change (bpow radix2 (-2)) with (/ 4); lra|cbn; lia]. }
  replace (INR 3) with 3 by (cbn; lra). cbn [fmul]. replace (/ 4 * 3) with (3 / 4) by lra. rewrite (finite_exact Double (3 / 4)) by (try lra; exact Fq).
  cbn [fsub fneg fadd]. change (S + - (3 / 4)) with (S - 3 / 4). rewrite (finite_exact Double (S - 3 / 4)) by (try lra; exact F).
  destruct weight_range as (W1 & _). pose proof (bpow_gt_0 radix2 (-50)). cbn [fdiv]. destruct (Req_EM_T (weight + weight) 0); [lra|].
  set (D := S - 3 / 4) in *. assert (HD : / 4 <= D <= / 2) by (unfold D; lra). destruct (quotient_rnd D HD) as (A & B). pose proof (bpow_gt_0 radix2 44).
  assert (Top : bpow radix2 49 < bpow radix2 (emax Double)) by (apply bpow_lt; reflexivity). assert (L4 : bpow radix2 48 < bpow radix2 49) by (apply bpow_lt; lia).
  rewrite (finite_is Double (D / (weight + weight))) by (rewrite Rabs_pos_eq; lra). cbn [fadd]. fold (factor D). destruct (factor_range D HD) as (G1 & G2).
  rewrite (finite_is Double (1 + _)) by (fold (factor D); rewrite Rabs_pos_eq; lra). fold (factor D). cbn [fle flt]. destruct (Rlt_dec 0 (factor D)); [|lra]. cbn [negb].
  cbn [fmul fsub fneg fadd]. rewrite Rmult_1_l. assert (Ff : format Double (factor D)) by apply rnd_format.
  rewrite (finite_is Double (factor D)) by (rewrite (rnd_id _ _ Ff), Rabs_pos_eq; lra). rewrite (rnd_id _ _ Ff).
  assert (Hn : 0 <= rnd Double (factor D + - (1)) <= factor D). { split; [apply rnd_nonneg; lra|]. rewrite <- (rnd_id _ _ Ff) at 2. apply rnd_le. lra. }
  rewrite (finite_is Double (factor D + - (1))) by (rewrite Rabs_pos_eq; lra). cbn [fabs flt]. rewrite Rabs_pos_eq by lra. destruct (Rlt_dec _ _); [lra|]. reflexivity.
Qed.

Lemma quarter_2u : format Double (/ 4 + (u53 + u53)).
Proof.
  apply format_is_float. exists 1125899906842625%Z, (-52)%Z. split; [|cbn; lia]. rewrite powerRZ_bpow.
  replace (u53 + u53) with (bpow radix2 (-52)) by (unfold u53; change (-52)%Z with (1 + -53)%Z; rewrite bpow_plus; change (bpow radix2 1) with 2; ring).
  replace 1125899906842625%Z with (2 ^ 50 + 1)%Z by reflexivity. rewrite plus_IZR. change (IZR (2 ^ 50)) with (bpow radix2 50).
  assert (bpow radix2 50 * bpow radix2 (-52) = / 4) by (rewrite <- bpow_plus; reflexivity). lra.
Qed.

Lemma factors_differ : factor (/ 4) < factor (/ 4 + (u53 + u53)).
Proof.
  pose proof u53_small as U. assert (HA : / 4 <= / 4 <= / 2) by lra. assert (HB : / 4 <= / 4 + (u53 + u53) <= / 2) by lra.
  destruct (quotient_range _ HA) as (QA & _). destruct (quotient_rnd _ HA) as (RA & _). destruct (quotient_rnd _ HB) as (RB & _). pose proof (bpow_gt_0 radix2 44) as P44.
  assert (Q2 : (/ 4 + (u53 + u53)) / (weight + weight) = (/ 4 / (weight + weight)) * (1 + 8 * u53)). { destruct weight_range as (W & _). pose proof (bpow_gt_0 radix2 (-50)). field. lra. }
  set (Q := / 4 / (weight + weight)) in *. unfold factor. rewrite Q2 in *. fold Q.
  pose proof (rnd_any Double Q ltac:(lra)) as (_ & A1). pose proof (rnd_any Double (Q * (1 + 8 * u53)) ltac:(nra)) as (B1 & _). rewrite u53_unit in *.
  pose proof (rnd_sum Double 1 (rnd Double Q) (float_1 _) (rnd_format _ _) ltac:(lra) ltac:(lra)) as (_ & A2).
  pose proof (rnd_sum Double 1 (rnd Double (Q * (1 + 8 * u53))) (float_1 _) (rnd_format _ _) ltac:(lra) ltac:(lra)) as (B2 & _). rewrite u53_unit in *.
  set (x := rnd Double Q) in *. set (y := rnd Double (Q * (1 + 8 * u53))) in *. eapply Rle_lt_trans; [exact A2|]. eapply Rlt_le_trans; [|exact B2].
  pose proof tiny_small as T. assert (T2 : bpow radix2 (-1000) < u53) by (unfold u53; apply bpow_lt; lia). set (t := tiny_half Double) in *.
  assert (Q3 : 1000 <= Q). { assert (bpow radix2 10 <= bpow radix2 44) by (apply bpow_le; lia). change (bpow radix2 10) with 1024 in *. lra. }
  assert (U2 : u53 < / 1024). { unfold u53. change (/ 1024) with (bpow radix2 (-10)). apply bpow_lt. lia. }
  apply Rle_lt_trans with ((1 + u53) * (1 + ((1 + u53) * Q + u53))); [apply Rmult_le_compat_l; lra|].
  apply Rlt_le_trans with ((1 - u53) * (1 + ((1 - u53) * (Q * (1 + 8 * u53)) - u53))); [|apply Rmult_le_compat_l; lra].
  assert (K : 0 < u53 * (Q * (4 - 16 * u53 + 8 * (u53 * u53)) - 4)). { apply Rmult_lt_0_compat; [lra|]. nra. }
  nra.
Qed.

Lemma order_seen_aux : exists tau run run', Forall (fun t => 0 <= t /\ is_float Double t) tau /\ passes rounded_exp tau 100 run /\ passes rounded_exp tau 100 run' /\
  exists a b, get_mean_flux_scale run (/ 4) 1 1 = Some (Fin a) /\ get_mean_flux_scale run' (/ 4) 1 1 = Some (Fin b) /\ a < b.
Proof.
  pose proof deep_bounds as D. pose proof u53_small as U. pose proof faint_range as FR. fold u53 in FR. pose proof (bpow_gt_0 radix2 (-54)) as P54. destruct runs_pass as (P1 & P2). destruct at_one as (E1 & E2 & E3 & E4). fold weight in E4.
  exists pixels, run_left, run_right. split.
  { unfold pixels. assert (is_float Double deep) by (apply format_is_float, rnd_format). constructor; [split; [lra|apply format_is_float, format_0]|]. constructor; [split; [lra|auto]|]. constructor; [split; [lra|auto]|constructor]. }
  split; [exact P1|]. split; [exact P2|]. destruct weight_range as (W1 & W2). pose proof (bpow_gt_0 radix2 (-50)).
  assert (W3 : bpow radix2 (-47) <= / 8) by (change (/ 8) with (bpow radix2 (-3)); apply bpow_le; lia).
  assert (WF : format Double weight) by apply rnd_format.
  assert (T : fadd Double (Fin 0) (fadd Double (Fin weight) (Fin weight)) = Fin (weight + weight)).
  { cbn [fadd]. rewrite finite_small; rewrite ?double_exact by exact WF; try lra. cbn [fadd]. rewrite Rplus_0_l. rewrite finite_small; rewrite ?double_exact by exact WF; try lra. reflexivity. }
  assert (S1 : fadd Double (fadd Double (Fin 1) (Fin faint)) (Fin faint) = Fin 1).
  { cbn [fadd]. rewrite finite_small by (rewrite ?rnd_1f; lra). rewrite rnd_1f. cbn [fadd]. rewrite finite_small by (rewrite ?rnd_1f; lra). now rewrite rnd_1f. }
  assert (S2 : fadd Double (Fin 1) (fadd Double (Fin faint) (Fin faint)) = Fin (1 + (u53 + u53))).
  { cbn [fadd]. rewrite finite_small by (rewrite ?rnd_ff; lra). rewrite rnd_ff. cbn [fadd]. rewrite finite_small by (rewrite ?rnd_1ff; lra). now rewrite rnd_1ff. }
  exists (factor (1 - 3 / 4)), (factor (1 + (u53 + u53) - 3 / 4)). split; [|split].
  - apply loop_value; [reflexivity| | |lra|].
    + unfold run_left. cbn [p_flux eval]. rewrite E1, E2. exact S1.
    + unfold run_left. cbn [p_tau eval]. rewrite E3, E4. exact T.
    + replace (1 - 3 / 4) with (bpow radix2 (-2)) by (change (bpow radix2 (-2)) with (/ 4); lra). apply format_bpow. cbn; lia.
  - apply loop_value; [reflexivity| | |lra|].
    + unfold run_right. cbn [p_flux eval]. rewrite E1, E2. exact S2.
    + unfold run_right. cbn [p_tau eval]. rewrite E3, E4. exact T.
    + replace (1 + (u53 + u53) - 3 / 4) with (/ 4 + (u53 + u53)) by lra. apply quarter_2u.
  - replace (1 - 3 / 4) with (/ 4) by lra. replace (1 + (u53 + u53) - 3 / 4) with (/ 4 + (u53 + u53)) by lra. apply factors_differ.
Qed.

(** Proofs about halos (C74, C75). *)
From Coq Require Import ZArith List Bool Reals Lia Lra Sorting.Sorted.
From Verif Require Import RegionModel HaloModel HaloSpec HaloProofs HaloProofs2.
From Verif Require SightlineModel SightlineProofs.
Import ListNotations.
Local Open Scope R_scope.

(** ** The first halo around a point *)

Lemma dist2_sq : forall a b, dist2 a b = sqdist a b.
Proof. intros [[x y] z] [[x' y'] z']. reflexivity. Qed.

Lemma first_halo_spec : forall cofm radii p k, length radii = length cofm ->
  match first_halo k p radii cofm with
  | Some (i, d) => exists j c, i = (k + j)%nat /\ host radii cofm p j /\ nth_error cofm j = Some c /\
                     d = sqrt (sqdist c p)
  | None => forall i, ~ contains radii cofm p i
  end.
Proof.
  intros cofm; induction cofm as [|c cofm IH]; intros [|r radii] p k L; try discriminate; cbn [first_halo].
  - intros i [c [r [H _]]]. destruct i; discriminate.
  - destruct (Rlt_dec (dist2 c p) (r ^ 2)) as [D|D].
    + exists 0%nat, c. split; [lia|]. split; [|split; [reflexivity|rewrite dist2_sq; auto]].
      split; [|intros j J; lia]. exists c, r. rewrite <- dist2_sq. auto.
    + assert (N0 : ~ contains (r :: radii) (c :: cofm) p 0).
      { intros [c' [r' [H1 [H2 H3]]]]. injection H1 as <-. injection H2 as <-. rewrite <- dist2_sq in H3. auto. }
      specialize (IH radii p (S k) ltac:(simpl in L; lia)). destruct (first_halo (S k) p radii cofm) as [[i d]|].
      * destruct IH as [j [c' [E [[H1 H2] [H3 H4]]]]]. exists (S j), c'. split; [lia|]. split; [|auto]. split; [exact H1|].
        intros [|j'] J Q; [exact (N0 Q)|]. apply (H2 j' ltac:(lia)). exact Q.
      * intros [|i] Q; [exact (N0 Q)|]. exact (IH i Q).
Qed.

Definition good_axis (ax : Z) : Prop := (1 <= ax <= 3)%Z.

Lemma put_line : forall ax p z, good_axis ax -> put ax p z = Some (on_line p ax z).
Proof.
  intros ax [[x y] w] z [A B]. assert (ax = 1 \/ ax = 2 \/ ax = 3)%Z as [-> | [-> | ->]] by lia; reflexivity.
Qed.

Lemma on_line_twice : forall ax p z z', good_axis ax -> on_line (on_line p ax z) ax z' = on_line p ax z'.
Proof.
  intros ax [[x y] w] z z' [A B]. assert (ax = 1 \/ ax = 2 \/ ax = 3)%Z as [-> | [-> | ->]] by lia; reflexivity.
Qed.

Lemma sqdist_nonneg : forall a b, 0 <= sqdist a b.
Proof.
  intros a b. unfold sqdist.
  pose proof (pow2_ge_0 (fst (fst a) - fst (fst b))). pose proof (pow2_ge_0 (snd (fst a) - snd (fst b))).
  pose proof (pow2_ge_0 (snd a - snd b)). lra.
Qed.

Lemma assign_loop_spec : forall ax radii cofm zs p q, good_axis ax -> length radii = length cofm ->
  (forall z, on_line q ax z = on_line p ax z) ->
  exists out, assign_loop ax q radii cofm zs = Some out /\ hosts radii cofm (map (on_line p ax) zs) out.
Proof.
  intros ax radii cofm zs; induction zs as [|z zs IH]; intros p q A L Q.
  - exists []. split; [reflexivity|constructor].
  - cbn [assign_loop map]. rewrite put_line by auto. rewrite (Q z).
    destruct (IH p (on_line p ax z) A L) as [out [E H]]; [intros; apply on_line_twice; auto|].
    rewrite E. pose proof (first_halo_spec cofm radii (on_line p ax z) 0 L) as F.
    destruct (first_halo 0 (on_line p ax z) radii cofm) as [[i d]|].
    + destruct F as [j [c [-> [F1 [F2 ->]]]]]. cbn [Nat.add]. eexists. split; [reflexivity|].
      apply hosts_in with (c := c); auto; [apply sqrt_pos|]. apply sqrt_sqrt, sqdist_nonneg.
    + eexists. split; [reflexivity|]. apply hosts_out; auto.
Qed.

Lemma C74_assign_aux : forall radii cofm zpos lines, length radii = length cofm -> (length zpos <= length lines)%nat ->
  (forall c ax, In (c, ax) lines -> good_axis ax) ->
  exists out, assign_to_halo lines radii cofm zpos = Some out /\ length out = length zpos /\
    forall k c ax zs hs, nth_error lines k = Some (c, ax) -> nth_error zpos k = Some zs -> nth_error out k = Some hs ->
      hosts radii cofm (map (on_line c ax) zs) hs.
Proof.
  intros radii cofm zpos; induction zpos as [|zs zpos IH]; intros lines L LL A.
  - exists []. split; [reflexivity|]. split; [reflexivity|]. intros [|k] c ax zs hs H1 H2; discriminate.
  - destruct lines as [|[c ax] lines]; [simpl in LL; lia|].
    destruct (IH lines L) as [out [E [EL H]]]; [simpl in LL; lia|intros; eapply A; right; eauto|].
    destruct (assign_loop_spec ax radii cofm zs c c) as [h [F1 F2]]; auto; [eapply A; left; eauto|].
    cbn [assign_to_halo]. rewrite F1, E. eexists. split; [reflexivity|]. split; [simpl; lia|].
    intros [|k] c' ax' zs' hs' H1 H2 H3; cbn [nth_error] in *.
    + injection H1 as <- <-. injection H2 as <-. injection H3 as <-. exact F2.
    + eapply H; eauto.
Qed.

(** The hosts are those of the points. *)
Lemma hosts_in_iff : forall radii cofm ps out i, hosts radii cofm ps out ->
  (In i (map fst out) <-> exists p, In p ps /\ host radii cofm p i).
Proof.
  intros radii cofm ps out i H. induction H as [|p ps j c d out Hh Hc Hd He Ht IH|p ps out Hn Ht IH].
  - split; [intros []|intros [p [[] _]]].
  - cbn [map fst]. split.
    + intros [<-|I]; [exists p; split; [left; auto|auto]|]. apply IH in I as [q [I1 I2]]. exists q. split; [right; auto|auto].
    + intros [q [[<-|I1] I2]].
      * left. destruct Hh as [K1 K2], I2 as [J1 J2]. destruct (Nat.lt_trichotomy i j) as [X|[X|X]]; auto.
        -- exfalso. exact (K2 i X J1).
        -- exfalso. exact (J2 j X K1).
      * right. apply IH. eauto.
  - split.
    + intros I. apply IH in I as [q [I1 I2]]. exists q. split; [right; auto|auto].
    + intros [q [[<-|I1] I2]]; [exfalso; exact (Hn i (proj1 I2))|]. apply IH. eauto.
Qed.

(** ** Velocities *)

Lemma virial_form : forall u m r, 0 < u_hubble u -> -1 < u_red u -> 0 < u_length u ->
  exists k, k = u_grav u * (u_mass u / 1e10 * (u_hubble u * (1 + u_red u)) / u_length u) /\
  virial_one u m r = sqrt (k * (m / (if Req_EM_T r 0 then 1 else r))) / 1e5.
Proof.
  intros u m r H Z L. eexists. split; [reflexivity|]. unfold virial_one. f_equal. f_equal.
  set (r' := if Req_EM_T r 0 then 1 else r).
  assert (R0 : r' <> 0) by (unfold r'; destruct (Req_EM_T r 0); lra).
  unfold Rdiv. rewrite !Rinv_mult. rewrite !Rinv_inv. ring.
Qed.

Lemma depth_unique : forall m r d, depth m r d -> d = m / (if Req_EM_T r 0 then 1 else r).
Proof.
  intros m r d [[N E]|[-> ->]].
  - destruct (Req_EM_T r 0); [contradiction|]. rewrite <- E. field. auto.
  - destruct (Req_EM_T 0 0); [field|lra].
Qed.

Lemma depth_exists : forall m r, depth m r (m / (if Req_EM_T r 0 then 1 else r)).
Proof.
  intros m r. destruct (Req_EM_T r 0) as [->|N]; [right; split; [auto|field]|left; split; [auto|field; auto]].
Qed.

Lemma e10_pos : 0 < 1e10. Proof. lra. Qed.
Lemma e5_pos : 0 < 1e5. Proof. lra. Qed.

Lemma virial_le_iff : forall u m r m' r' d d', good_units u -> 0 <= d -> 0 <= d' -> depth m r d -> depth m' r' d' ->
  (virial_one u m' r' <= virial_one u m r <-> d' <= d).
Proof.
  intros u m r m' r' d d' [U1 [U2 [U3 [U4 U5]]]] D D' H H'.
  destruct (virial_form u m r U4 U5 U2) as [k [K ->]]. destruct (virial_form u m' r' U4 U5 U2) as [k' [K' ->]].
  rewrite <- (depth_unique _ _ _ H), <- (depth_unique _ _ _ H'). rewrite <- K in K'. subst k'.
  assert (KP : 0 < k).
  { rewrite K. pose proof e10_pos as P10. generalize dependent 1e10. intros e _ EP. apply Rmult_lt_0_compat; auto.
    apply Rdiv_lt_0_compat; auto. apply Rmult_lt_0_compat; [apply Rdiv_lt_0_compat; auto|apply Rmult_lt_0_compat; lra]. }
  clear K. pose proof e5_pos as E5. set (e := 1e5) in *. clearbody e.
  assert (P : 0 <= k * d) by (apply Rmult_le_pos; lra). assert (P' : 0 <= k * d') by (apply Rmult_le_pos; lra).
  split.
  - intros Q. apply Rmult_le_reg_r in Q; [|apply Rinv_0_lt_compat; auto].
    apply sqrt_le_0 in Q; auto. apply Rmult_le_reg_l in Q; auto.
  - intros Q. apply Rmult_le_compat_r; [left; apply Rinv_0_lt_compat; auto|]. apply sqrt_le_1; auto.
    apply Rmult_le_compat_l; lra.
Qed.

Lemma C75_circular_aux : forall u m r v, good_units u -> 0 <= m -> 0 < r ->
  circular (u_grav u) (m * (u_mass u / 1e10) / u_hubble u) (r * u_length u / u_hubble u / (1 + u_red u)) v ->
  virial_one u m r * 1e5 = sqrt (u_hubble u) * v.
Proof.
  intros u m r v [U1 [U2 [U3 [U4 U5]]]] M Rp [V0 V].
  destruct (virial_form u m r U4 U5 U2) as [k [K ->]].
  destruct (Req_EM_T r 0) as [|_]; [lra|].
  pose proof e5_pos as E5. set (e5 := 1e5) in *. clearbody e5.
  pose proof e10_pos as E10. set (e := 1e10) in *. clearbody e.
  unfold Rdiv. rewrite Rmult_assoc, Rinv_l, Rmult_1_r by lra.
  rewrite <- (sqrt_square v) by auto. rewrite <- sqrt_mult_alt by lra. f_equal. rewrite K.
  assert (VV : v * v = u_grav u * (m * (u_mass u / e) / u_hubble u) / (r * u_length u / u_hubble u / (1 + u_red u))).
  { rewrite <- V. field. repeat split; lra. }
  rewrite VV. field. repeat split; lra.
Qed.

Lemma C75_hubble_aux : exists u m r v, good_units u /\ 0 < m /\ 0 < r /\
  circular (u_grav u) (m * (u_mass u / 1e10) / u_hubble u) (r * u_length u / u_hubble u / (1 + u_red u)) v /\
  virial_one u m r * 1e5 = v / 2 /\ v <> v / 2.
Proof.
  exists (mkUnits 1e10 1 1 (1/4) 0), 1, 1, 1.
  assert (G : good_units (mkUnits 1e10 1 1 (1/4) 0)).
  { unfold good_units; cbn [u_mass u_length u_grav u_hubble u_red]. pose proof e10_pos. lra. }
  assert (C : circular 1 (1 * (1e10 / 1e10) / (1/4)) (1 * 1 / (1/4) / (1 + 0)) 1).
  { split; [lra|]. pose proof e10_pos as E. generalize dependent 1e10. intros e _ E. field. lra. }
  split; [exact G|]. split; [lra|]. split; [lra|]. split; [exact C|]. split; [|lra].
  rewrite (C75_circular_aux _ 1 1 1 G ltac:(lra) ltac:(lra) C). cbn [u_hubble].
  replace (1/4) with ((1/2) * (1/2)) by lra. rewrite sqrt_square by lra. lra.
Qed.

Lemma C75_zero_aux : forall u m, virial_one u 0 0 = 0 /\ virial_one u m 0 = virial_one u m 1.
Proof.
  intros u m. unfold virial_one. destruct (Req_EM_T 0 0) as [_|]; [|lra]. destruct (Req_EM_T 1 0) as [|_]; [lra|].
  split; [|reflexivity].
  set (x := u_grav u * _ * 0 / 1). replace x with 0 by (unfold x, Rdiv; rewrite Rmult_0_r, Rmult_0_l; reflexivity).
  rewrite sqrt_0. unfold Rdiv. ring.
Qed.

Lemma C75_subhalo_aux : forall u raw r, good_units u -> 0 <= raw -> 0 < r -> forall grp sub,
  load_masses (u_mass u) [raw] [raw] = ([grp], [sub]) ->
  virial_one u grp r = sqrt (u_mass u / solar_mass) * virial_one u sub r.
Proof.
  intros u raw r [U1 [U2 [U3 [U4 U5]]]] M Rp grp sub H.
  unfold load_masses in H. cbn [map] in H. injection H as <- <-.
  destruct (virial_form u (raw * u_mass u / solar_mass) r U4 U5 U2) as [k [K ->]].
  destruct (virial_form u raw r U4 U5 U2) as [k' [K' ->]]. rewrite <- K in K'. subst k'. clear K.
  destruct (Req_EM_T r 0) as [|_]; [lra|]. unfold Rdiv at 1 5. rewrite <- Rmult_assoc. f_equal.
  assert (SM : 0 < solar_mass) by (unfold solar_mass; lra).
  rewrite <- sqrt_mult_alt by (apply Rlt_le, Rdiv_lt_0_compat; auto). f_equal. field. split; lra.
Qed.

Lemma C75_min_mass_aux : forall omegam box npart minpart, 0 < npart ->
  min_halo_mass omegam box (Some npart) minpart * npart = minpart * (27.8 * omegam * (box / 1000) ^ 3).
Proof. 
  intros. unfold min_halo_mass. replace 2.78e11 with (27.8 * 1e10) by lra. replace 1e3 with 1000 by lra.
  pose proof e10_pos as E. set (e := 1e10) in *. clearbody e. generalize 27.8. intros a. field. split; lra.
Qed.

(** ** The halo of a sightline *)

Lemma all_some_spec : forall A (l : list (option A)), (forall x, In x l -> x <> None) ->
  exists r, all_some l = Some r /\ map Some r = l.
Proof.
  intros A l; induction l as [|[x|] l IH]; intros H.
  - exists []. auto.
  - destruct IH as [r [E1 E2]]; [intros; apply H; right; auto|]. exists (x :: r). cbn [all_some]. rewrite E1.
    split; [reflexivity|cbn [map]; congruence].
  - exfalso. apply (H None); [left; auto|auto].
Qed.

Lemma list_Rmax_spec : forall l, l <> [] -> exists m, list_Rmax l = Some m /\ In m l /\ forall x, In x l -> x <= m.
Proof.
  intros l; induction l as [|x l IH]; intros H; [congruence|]. cbn [list_Rmax]. destruct l as [|y l].
  - exists x. cbn. repeat split; auto. intros z [<-|[]]. lra.
  - destruct IH as [m [E [I M]]]; [congruence|]. rewrite E. exists (Rmax x m). split; [reflexivity|]. split.
    + unfold Rmax. destruct (Rle_dec x m); [right; auto|left; auto].
    + intros z [<-|Z]; [apply Rmax_l|]. apply Rle_trans with m; [apply M; auto|apply Rmax_r].
Qed.

Lemma first_equal_spec : forall m both v, length both = length v -> In m v ->
  exists b i, first_equal m both v = Some b /\ nth_error both i = Some b /\ nth_error v i = Some m.
Proof.
  intros m both; induction both as [|b both IH]; intros [|x v] L I; try discriminate; [destruct I|].
  cbn [first_equal]. destruct (Req_EM_T x m) as [->|N].
  - exists b, 0%nat. auto.
  - destruct I as [->|I]; [contradiction|]. destruct (IH v ltac:(simpl in L; lia) I) as [b' [i [E1 [E2 E3]]]].
    exists b', (S i). auto.
Qed.

Definition set_like (set_list : list nat -> list nat) : Prop := forall l, enumerates l (set_list l).

Lemma nearest_one_spec : forall set_list u c halos subhalos, set_like set_list -> good_units u -> good_cat c ->
  (forall h, In h halos -> (h < length (sub_cofm c))%nat) ->
  (forall s, In s subhalos -> (s < length (sub_sub_cofm c))%nat) ->
  let cand h := In h halos \/ exists s, In s subhalos /\ nth_error (sub_sub_index c) s = Some h in
  exists out, nearest_one set_list u c halos subhalos = Some out /\
    ((out = (-1)%Z /\ forall h, ~ cand h) \/
     exists h m r d, out = Z.of_nat h /\ cand h /\ nth_error (sub_mass c) h = Some m /\ nth_error (sub_radii c) h = Some r /\
       depth m r d /\
       forall h' m' r' d', cand h' -> nth_error (sub_mass c) h' = Some m' -> nth_error (sub_radii c) h' = Some r' ->
         depth m' r' d' -> d' <= d).
Proof.
  intros set_list u c halos subhalos SL GU [G1 [G2 [G3 [G4 [G5 [G6 [G7 G8]]]]]]] HH HS cand.
  unfold nearest_one.
  destruct (all_some_spec _ (map (take (sub_sub_index c)) subhalos)) as [parents [E1 E2]].
  { intros x X. apply in_map_iff in X as [s [<- S1]]. unfold take. apply nth_error_Some. rewrite G4. auto. }
  rewrite E1. set (both := set_list (parents ++ halos)).
  assert (PI : forall h, In h parents <-> exists s, In s subhalos /\ nth_error (sub_sub_index c) s = Some h).
  { intros h. split.
    - intros I. apply (in_map (@Some nat)) in I. rewrite E2 in I. apply in_map_iff in I as [s [I1 I2]]. exists s. auto.
    - intros [s [I1 I2]]. assert (I : In (Some h) (map (@Some nat) parents)).
      { rewrite E2. apply in_map_iff. exists s. auto. }
      apply in_map_iff in I as [h' [Q I]]. injection Q as ->. exact I. }
  assert (BI : forall h, In h both <-> cand h).
  { intros h. destruct (SL (parents ++ halos)) as [_ N]. unfold both. rewrite N, in_app_iff, PI. unfold cand. tauto. }
  assert (CB : forall h, cand h -> (h < length (sub_cofm c))%nat).
  { intros h [I|[s [_ I]]]; [auto|]. apply G5. apply nth_error_In in I. exact I. }
  destruct both as [|b0 bs] eqn:EB.
  - exists (-1)%Z. split; [reflexivity|]. left. split; auto. intros h C. apply BI in C. destruct C.
  - rewrite G6. cbn [negb andb]. rewrite <- EB in *. unfold virial_vel.
    destruct (all_some_spec _ (map (virial_index u c false) both)) as [v [F1 F2]].
    { intros x X. apply in_map_iff in X as [h [<- X]]. apply BI, CB in X. unfold virial_index, take.
      destruct (nth_error (sub_mass c) h) eqn:Q1; [|apply nth_error_None in Q1; lia].
      destruct (nth_error (sub_radii c) h) eqn:Q2; [|apply nth_error_None in Q2; lia]. discriminate. }
    rewrite F1.
    assert (LV : length both = length v).
    { rewrite <- (map_length (virial_index u c false) both), <- (map_length (@Some R) v). congruence. }
    destruct (list_Rmax_spec v) as [m [M1 [M2 M3]]]; [intros ->; rewrite EB in LV; discriminate|].
    rewrite M1. destruct (first_equal_spec m both v LV M2) as [b [i [N1 [N2 N3]]]]. rewrite N1.
    eexists. split; [reflexivity|]. right.
    assert (VI : forall j h x, nth_error both j = Some h -> nth_error v j = Some x -> virial_index u c false h = Some x).
    { intros j h x J1 J2. apply (map_nth_error (virial_index u c false)) in J1.
      apply (map_nth_error (@Some R)) in J2. rewrite F2 in J2. congruence. }
    pose proof (VI i b m N2 N3) as VB. unfold virial_index, take in VB.
    destruct (nth_error (sub_mass c) b) as [mb|] eqn:Q1; [|discriminate].
    destruct (nth_error (sub_radii c) b) as [rb|] eqn:Q2; [|discriminate]. injection VB as VB.
    assert (DN : forall mm rr, In mm (sub_mass c) -> In rr (sub_radii c) -> 0 <= mm / (if Req_EM_T rr 0 then 1 else rr)).
    { intros mm rr I1 I2. apply G7 in I1. apply G8 in I2. apply Rmult_le_pos; auto. apply Rlt_le, Rinv_0_lt_compat.
      destruct (Req_EM_T rr 0); lra. }
    exists b, mb, rb, (mb / (if Req_EM_T rb 0 then 1 else rb)).
    split; [reflexivity|]. split; [apply BI; apply nth_error_In in N2; exact N2|]. split; [auto|]. split; [auto|].
    split; [apply depth_exists|].
    intros h' m' r' d' C' K1 K2 D'.
    apply BI in C'. apply In_nth_error in C' as [j J].
    assert (JV : (j < length v)%nat) by (rewrite <- LV; apply nth_error_Some; congruence).
    destruct (nth_error v j) as [x|] eqn:X; [|apply nth_error_None in X; lia].
    pose proof (VI j h' x J X) as VX. unfold virial_index, take in VX. rewrite K1, K2 in VX. injection VX as VX.
    specialize (M3 x (nth_error_In _ _ X)). rewrite <- VX, <- VB in M3.
    pose proof (DN m' r' (nth_error_In _ _ K1) (nth_error_In _ _ K2)) as P'. rewrite <- (depth_unique _ _ _ D') in P'.
    pose proof (DN mb rb (nth_error_In _ _ Q1) (nth_error_In _ _ Q2)) as P.
    apply (virial_le_iff u mb rb m' r' _ d' GU P P' (depth_exists mb rb) D'). exact M3.
Qed.

Lemma C75_lookup_aux : forall u c halos sub out, virial_vel u c halos sub = Some out <->
  Forall2 (fun i v => exists m r, nth_error (if sub then sub_sub_mass c else sub_mass c) i = Some m /\
    nth_error (if sub then sub_sub_radii c else sub_radii c) i = Some r /\ v = virial_one u m r) halos out.
Proof.
  intros u c halos sub. unfold virial_vel. induction halos as [|i halos IH]; intros out; cbn [map all_some].
  - split; [intros H; injection H as <-; constructor|intros H; inversion H; reflexivity].
  - unfold virial_index at 1, take. split.
    + destruct (nth_error (if sub then sub_sub_mass c else sub_mass c) i) as [m|] eqn:M; [|discriminate].
      destruct (nth_error (if sub then sub_sub_radii c else sub_radii c) i) as [r|] eqn:Q; [|discriminate].
      destruct (all_some (map (virial_index u c sub) halos)) as [t|]; [|discriminate]. intros H; injection H as <-.
      constructor; [exists m, r; auto|]. apply IH. reflexivity.
    + intros H. inversion H as [|? v ? t [m [r [M [Q ->]]]] T]; subst. rewrite M, Q. apply IH in T. rewrite T. reflexivity.
Qed.

(** Histories of statistics: one threshold for every line, leaks, rescaling. *)
From Coq Require Import ZArith Ascii String List Reals Lra Lia Permutation.
From Verif Require Import IndexModel AbsorptionSpec AbsorptionProofs RescaleModel RescaleSpec RescaleProofs FilterModel FilterSpec FilterProofs FluxModel ObserverModel CurveModel
  SessionModel SessionSpec SessionProofs SessionProofs2.
Import ListNotations.
Local Open Scope R_scope.

Lemma size_map_map : forall f a, size (map (map f) a) = size a.
Proof. intros f a. unfold size. rewrite <- concat_map. apply map_length. Qed.

Section Session.
Variable compute : key -> matrix.
Variable parts : list R -> nat -> list (list R).
Variable fuel : nat.
Variable power3d : R * R * R -> list (R * R * R * R) -> list R.
Variable nbins : nat.
Variables vmax spec_res box dvbin velfac atime light : R.
Hypothesis Reg : regular fuel compute.

Notation exec := (exec compute parts fuel power3d nbins vmax spec_res box dvbin velfac atime light).
Notation session := (session compute parts fuel power3d nbins vmax spec_res box dvbin velfac atime light).
Notation cur := (cur compute).
Notation inv := (inv compute).
Notation base := (base compute).
Notation answer := (answer parts fuel power3d nbins vmax spec_res box dvbin velfac atime light).
Notation final := (final parts fuel).

(** What [masking] leaves of the computed array of a line. *)
Definition masked_line (th : key -> option R) (k : key) (b : matrix) : Prop := filter_tau fuel (compute k) (th k) = Done b.

Lemma masked_twice : forall th k b, masked_line th k b -> (forall t, th k = Some t -> effective_tau (compute k) + 1 / 4 <= t /\ 0 < t) ->
  filter_tau fuel b (th k) = Done b.
Proof.
  intros th k b M H. unfold masked_line in M. destruct (th k) as [t|] eqn:T; [|reflexivity]. destruct (H t eq_refl) as [H1 H2].
  destruct (mask_on fuel t (compute k) (Reg k) H1 H2) as (b' & M' & D & B). rewrite M in M'. injection M' as <-.
  apply mask_off; [|exact B|exact H2]. eapply dimmer_shaped; [exact D|apply Reg].
Qed.

Definition settled (th : key -> option R) (st : state) : Prop := forall k, cur st k = compute k \/ masked_line th k (cur st k).

Lemma steady_exec : forall th q st, steady th q -> admissible compute q -> dim compute st -> settled th st ->
  exists a st', exec q st = Some (a, st') /\ dim compute st' /\ settled th st' /\
    exists st1, session [q] new_object = Some ([a], st1).
Proof.
  intros th q st Hs Ha D Hb.
  destruct (admissible_exec compute parts fuel power3d nbins vmax spec_res box dvbin velfac atime light Reg q st Ha D) as (b & st' & E & M & D' & _ & C & O & _).
  destruct (admissible_exec compute parts fuel power3d nbins vmax spec_res box dvbin velfac atime light Reg q new_object Ha (dim_new compute fuel Reg)) as (b0 & st0 & E0 & M0 & _).
  rewrite base_new in M0.
  assert (X : b = b0 /\ (cur st' (about q) = compute (about q) \/ masked_line th (about q) (cur st' (about q)))).
  { rewrite C. destruct q as [s k t|[|] k num|k|k sz]; cbn [about steady] in *.
    - subst t. cbn [masking SessionProofs.base forced about] in M, M0. destruct (filter_tau fuel (compute k) (th k)) as [b1| |] eqn:F; try discriminate. injection M0 as ->.
      destruct (Hb k) as [Hk|Hk].
      + rewrite Hk, F in M. injection M as ->. split; [reflexivity|]. right. exact F.
      + assert (T : forall t, th k = Some t -> effective_tau (compute k) + 1 / 4 <= t /\ 0 < t).
        { intros t T. destruct s as [|n d|d w|[d|]]; cbn in Ha; rewrite ?T in Ha; try exact Ha; contradiction. }
        rewrite (masked_twice th k _ Hk T) in M. injection M as <-. unfold masked_line in Hk. rewrite F in Hk. injection Hk as <-.
        split; [reflexivity|]. right. exact F.
    - cbn in M, M0. injection M as <-. injection M0 as <-. split; [reflexivity|left; reflexivity].
    - cbn in M, M0. injection M as <-. injection M0 as <-. destruct (Hb k) as [Hk|Hk]; [rewrite Hk; split; [reflexivity|left; reflexivity]|].
      unfold masked_line in Hk. rewrite Hs in Hk. injection Hk as Hk. rewrite <- Hk. split; [reflexivity|left; reflexivity].
    - cbn in M, M0. injection M as <-. injection M0 as <-. destruct (Hb k) as [Hk|Hk]; [rewrite Hk; split; [reflexivity|left; reflexivity]|].
      unfold masked_line in Hk. rewrite Hs in Hk. injection Hk as Hk. rewrite <- Hk. split; [reflexivity|left; reflexivity].
    - cbn in M, M0. injection M as <-. injection M0 as <-. destruct (Hb k) as [Hk|Hk]; [rewrite Hk; split; [reflexivity|left; reflexivity]|].
      unfold masked_line in Hk. rewrite Hs in Hk. injection Hk as Hk. rewrite <- Hk. split; [reflexivity|left; reflexivity]. }
  destruct X as [<- X]. exists (answer q b), st'. split; [exact E|]. split; [exact D'|]. split.
  - intros k. destruct (key_dec k (about q)) as [-> |N]; [exact X|]. rewrite O by assumption. apply Hb.
  - exists st0. cbn [SessionModel.session]. rewrite E0. reflexivity.
Qed.

(** ** One threshold for every line: as if each call came first *)
Lemma C107_steady_aux : forall th qs, List.Forall (steady th) qs -> List.Forall (admissible compute) qs ->
  exists answers st, session qs new_object = Some (answers, st) /\
    Forall2 (fun q a => exists st1, session [q] new_object = Some ([a], st1)) qs answers.
Proof.
  intros th qs.
  assert (G : forall st, List.Forall (steady th) qs -> List.Forall (admissible compute) qs -> dim compute st -> settled th st ->
    exists answers st', session qs st = Some (answers, st') /\ Forall2 (fun q a => exists st1, session [q] new_object = Some ([a], st1)) qs answers).
  { induction qs as [|q qs IH]; intros st H1 H2 D X.
    - exists [], st. split; [reflexivity|constructor].
    - apply Forall_cons_iff in H1. apply Forall_cons_iff in H2. destruct H1 as [H1 H1'], H2 as [H2 H2'].
      destruct (steady_exec th q st H1 H2 D X) as (a & st1 & E & D1 & X1 & N). destruct (IH st1 H1' H2' D1 X1) as (l & st2 & E2 & F).
      exists (a :: l), st2. split; [cbn [SessionModel.session]; rewrite E, E2; reflexivity|]. constructor; assumption. }
  intros H1 H2. apply G; [exact H1|exact H2|apply (dim_new compute fuel Reg)|]. intros k. left. reflexivity.
Qed.

Lemma C107_runs_aux : forall qs, List.Forall (admissible compute) qs -> exists answers st, session qs new_object = Some (answers, st) /\ length answers = length qs.
Proof.
  intros qs H. destruct (admissible_session compute parts fuel power3d nbins vmax spec_res box dvbin velfac atime light Reg qs new_object H (dim_new compute fuel Reg)) as (l & st & E & L & _).
  exists l, st. auto.
Qed.

(** ** A statistic with a threshold changes what later calls return *)
Lemma C107_leak_aux : forall s k t r x, (forall m, s <> Power3D (Some m)) -> effective_tau (compute k) + 1 / 4 <= t -> 0 < t -> In r (compute k) -> In x r -> t < x ->
  exists a y st, session [Ask s k (Some t); Ask MeanFlux k None] new_object = Some ([a; Some (Number y)], st) /\
    (exists st1, session [Ask MeanFlux k None] new_object = Some ([Some (Number (transmission (compute k)))], st1)) /\
    transmission (compute k) < y /\
    (exists st0 a0, session [Fetch false k None] new_object = Some ([Some (Array (compute k))], st0) /\ heap st0 = [compute k] /\
       exists st2, session [Ask s k (Some t)] st0 = Some ([a0], st2) /\ exists b, heap st2 = [b] /\ b <> compute k).
Proof.
  intros s k t r x Hs H1 H2 Hr Hx Ht.
  assert (Ha : admissible compute (Ask s k (Some t))).
  { destruct s as [|n d|d w|[d|]]; cbn; auto. exact (Hs d eq_refl). }
  destruct (mask_on fuel t (compute k) (Reg k) H1 H2) as (b & M & D & B).
  assert (Hc : exists x, In x (concat (compute k)) /\ t < x) by (exists x; split; [apply in_concat; exists r; auto|exact Ht]).
  pose proof (mean_strict t _ _ D B Hc) as Q.
  assert (Fs : forall c, rescaled parts fuel s c = Some c). { intros c. destruct s as [|n d|d w|[d|]]; try reflexivity. exfalso. exact (Hs d eq_refl). }
  assert (Sb : (1 < size b)%nat) by (apply (proj1 (dimmer_shaped fuel _ _ D (Reg k)))).
  exists (reply parts fuel power3d nbins vmax spec_res box s b), (mean_exp b).
  eexists. split; [|split; [|split]].
  - cbn [SessionModel.session SessionModel.exec]. unfold SessionModel.get_tau at 1. cbn [lookup cache new_object computed heap app length nth].
    rewrite M, Fs. unfold SessionModel.get_tau. cbn [lookup cache store heap update_nth nth]. destruct (key_dec k k) as [_|N]; [|congruence]. cbn [nth].
    destruct (size b) as [|[|n]] eqn:Z; [lia|lia|]. cbn [Nat.ltb Nat.leb filter_tau rescaled reply]. reflexivity.
  - eexists. cbn [SessionModel.session SessionModel.exec]. unfold SessionModel.get_tau. cbn [lookup cache new_object computed heap app length nth filter_tau rescaled reply]. reflexivity.
  - exact Q.
  - eexists. eexists. split.
    { cbn [SessionModel.session SessionModel.exec]. unfold SessionModel.get_tau. cbn [lookup cache new_object computed heap app length nth]. reflexivity. }
    split; [reflexivity|]. eexists. split.
    + cbn [SessionModel.session SessionModel.exec]. unfold SessionModel.get_tau. cbn [lookup cache heap nth]. destruct (key_dec k k) as [_|N]; [|congruence].
      cbn [nth]. pose proof (proj1 (Reg k)) as Z. fold (size (compute k)) in Z.
      destruct (size (compute k)) as [|[|n]] eqn:Zc; [lia|lia|]. cbn [Nat.ltb Nat.leb]. cbn [nth heap]. rewrite M, Fs. reflexivity.
    + exists b. split; [reflexivity|]. intros ->. lra.
Qed.

End Session.

(** ** A three dimensional power spectrum with a requested mean flux leaves the rescaled optical depths *)
Lemma unmasked_all : forall l t, (forall x, In x l -> x <= t) -> unmasked t l = l.
Proof.
  induction l as [|x l IH]; intros t H; [reflexivity|]. unfold unmasked. cbn [filter]. destruct (Rle_dec x t) as [_|N].
  - f_equal. apply IH. intros y Hy. apply H. right. exact Hy.
  - exfalso. apply N, H. left. reflexivity.
Qed.

Lemma C107_rescale_aux : forall compute parts power3d nbins vmax spec_res box dvbin velfac atime light k m sstar,
  divided (concat (compute k)) (parts (concat (compute k))) -> absorbing (concat (compute k)) ->
  (forall x, In x (concat (compute k)) -> x <= 10 ^ 30) ->
  mean_transmission sstar (concat (compute k)) = m -> / 10000000000 <= sstar ->
  exists enough, forall fuel, (enough <= fuel)%nat -> regular fuel compute ->
    exists a x st, session compute parts fuel power3d nbins vmax spec_res box dvbin velfac atime light
      [Ask (Power3D (Some m)) k None; Ask MeanFlux k None] new_object = Some ([a; Some (Number x)], st) /\ m <= x <= m + 1 / 99999.
Proof.
  intros compute parts power3d nbins vmax spec_res box dvbin velfac atime light k m sstar Hd Ha Hb Hm Hs.
  assert (U : unmasked default_thresh (concat (compute k)) = concat (compute k)) by (apply unmasked_all; exact Hb).
  destruct (C15_converges_aux (concat (compute k)) (parts (concat (compute k))) m default_tol default_thresh sstar Hd) as (s1 & enough & s & _ & F & _ & _ & B).
  { rewrite U. exact Ha. } { rewrite U. exact Hm. } { exact Hs. } { unfold default_tol. lra. }
  rewrite U in B. exists enough. intros fuel Hf Reg.
  set (b := map (map (fun t => t * s)) (compute k)).
  assert (Sb : (1 < size b)%nat) by (unfold b; rewrite size_map_map; apply (proj1 (Reg k))).
  exists (reply parts fuel power3d nbins vmax spec_res box (Power3D (Some m)) (compute k)), (mean_exp b).
  eexists. split.
  - cbn [session exec]. unfold get_tau at 1. cbn [lookup cache new_object computed heap app length nth filter_tau].
    unfold rescaled at 1, scale_and_mean at 1. rewrite (F fuel Hf). fold b.
    unfold get_tau. cbn [lookup cache store heap update_nth nth]. destruct (key_dec k k) as [_|N]; [|congruence]. cbn [nth].
    destruct (size b) as [|[|n]] eqn:Z; [lia|lia|]. cbn [Nat.ltb Nat.leb filter_tau rescaled reply]. reflexivity.
  - assert (E : mean_exp b = mean_transmission s (concat (compute k))).
    { unfold mean_exp, mean_transmission, b. rewrite <- concat_map, map_map, map_length. f_equal. f_equal. apply map_ext. intros t. f_equal. ring. }
    rewrite E. unfold default_tol in B. assert (/ 100000 / (1 - / 100000) = 1 / 99999) as T by lra. rewrite T in B. exact B.
Qed.

(** ** A lower threshold later: not what a new object answers *)
Ltac run_filter := repeat (
  cbn [filter_single argmax argmax_from down up wrap length Nat.add Nat.sub Nat.leb Nat.modulo Nat.divmod snd update_nth nth];
  match goal with |- context [Rlt_dec ?a ?b] => destruct (Rlt_dec a b); try lra end).

Lemma filter_a : forall e, 0 < e < 1 -> filter_single 4 e 50 [100; 0; 5; 0] = Done [e; 0; 5; 0].
Proof. intros e H. run_filter; reflexivity. Qed.
Lemma filter_b : forall e, 0 < e < 1 -> filter_single 4 e 2 [100; 0; 5; 0] = Done [e; 0; e; 0].
Proof. intros e H. run_filter; reflexivity. Qed.
Lemma filter_c : forall e e', 0 < e < 1 -> 0 < e' < 1 -> filter_single 4 e' 2 [e; 0; 5; 0] = Done [e; 0; e'; 0].
Proof. intros e e' H H'. run_filter; reflexivity. Qed.

Lemma filter_row : forall t r r', filter_single 4 (effective_tau [r]) t r = Done r' -> r' <> [] -> (forall x, In x r' -> x <= t) -> 0 < t -> filter_tau 4 [r] (Some t) = Done [r'].
Proof.
  intros t r r' H N B P. unfold filter_tau. cbn [filter_rows]. rewrite H. cbn [concat]. rewrite app_nil_r.
  destruct (argmax r') as [(i, v)|] eqn:A.
  - destruct (argmax_spec r' i v A) as (V1 & V2 & _). assert (V : In v r') by (rewrite <- V2; apply nth_In, V1). specialize (B v V). destruct (Rlt_dec v (t * (101 / 100))); [reflexivity|lra].
  - destruct r'; [congruence|discriminate].
Qed.

Lemma exp_5 : exp (- (100)) < / 2 /\ exp (- (5)) < / 2 /\ 0 < exp (- (100)) /\ 0 < exp (- (5)).
Proof.
  assert (G : forall x, 2 <= x -> exp (- x) < / 2).
  { intros x Hx. rewrite exp_Ropp. apply Rinv_lt_contravar; [pose proof (exp_pos x); lra|]. pose proof (exp_ineq1 x). lra. }
  split; [apply G; lra|]. split; [apply G; lra|]. split; apply exp_pos.
Qed.

Lemma eff_range : forall m, / 2 <= m < 1 -> 0 < - ln m < 1.
Proof.
  intros m H. split.
  - pose proof (ln_increasing m 1 ltac:(lra) ltac:(lra)) as L. rewrite ln_1 in L. lra.
  - assert (ln (exp (- (1))) < ln m); [|rewrite ln_exp in *; lra]. apply ln_increasing; [apply exp_pos|].
    assert (exp (- (1)) < / 2); [|lra]. rewrite exp_Ropp. apply Rinv_lt_contravar; [pose proof (exp_pos 1); lra|]. pose proof (exp_ineq1 1 ltac:(lra)). lra.
Qed.

Lemma C107_lower_aux : forall parts power3d nbins vmax spec_res box dvbin velfac atime light k,
  let compute := (fun _ : key => [[100; 0; 5; 0]]) in
  let run := session compute parts 4 power3d nbins vmax spec_res box dvbin velfac atime light in
  regular 4 compute /\ admissible compute (Ask MeanFlux k (Some 50)) /\ admissible compute (Ask MeanFlux k (Some 2)) /\
  exists x y z st st', run [Ask MeanFlux k (Some 50); Ask MeanFlux k (Some 2)] new_object = Some ([Some (Number x); Some (Number y)], st) /\
    run [Ask MeanFlux k (Some 2)] new_object = Some ([Some (Number z)], st') /\ z < y.
Proof.
  intros parts power3d nbins vmax spec_res box dvbin velfac atime light k compute run.
  destruct exp_5 as (X1 & X2 & X3 & X4). set (p := exp (- (100))) in *. set (q := exp (- (5))) in *.
  set (m0 := (p + 1 + q + 1) / 4). set (e0 := - ln m0).
  assert (M0 : / 2 <= m0 < 1) by (unfold m0; lra). pose proof (eff_range m0 M0) as E0. fold e0 in E0.
  assert (T0 : effective_tau [[100; 0; 5; 0]] = e0).
  { unfold effective_tau, e0. f_equal. f_equal. unfold m0, p, q, rsum. cbn [concat app map fold_right length]. rewrite Ropp_0, exp_0.
    replace (INR 4) with 4 by (cbn; lra). lra. }
  assert (X0 : exp (- e0) = m0). { unfold e0. rewrite Ropp_involutive. apply exp_ln. lra. }
  set (m1 := (m0 + 1 + q + 1) / 4). set (e1 := - ln m1).
  assert (M1 : / 2 <= m1 < 1) by (unfold m1; lra). pose proof (eff_range m1 M1) as E1. fold e1 in E1.
  assert (T1 : effective_tau [[e0; 0; 5; 0]] = e1).
  { unfold effective_tau, e1. f_equal. f_equal. unfold m1, rsum. cbn [concat app map fold_right length]. rewrite X0, Ropp_0, exp_0. fold q.
    replace (INR 4) with 4 by (cbn; lra). lra. }
  assert (Y1 : exp (- e1) = m1). { unfold e1. rewrite Ropp_involutive. apply exp_ln. lra. }
  assert (F1 : filter_tau 4 [[100; 0; 5; 0]] (Some 50) = Done [[e0; 0; 5; 0]]).
  { apply filter_row; [rewrite T0; apply filter_a, E0|discriminate| |lra]. cbn [In]. intros x [<- |[<- |[<- |[<- |[]]]]]; lra. }
  assert (F2 : filter_tau 4 [[100; 0; 5; 0]] (Some 2) = Done [[e0; 0; e0; 0]]).
  { apply filter_row; [rewrite T0; apply filter_b, E0|discriminate| |lra]. cbn [In]. intros x [<- |[<- |[<- |[<- |[]]]]]; lra. }
  assert (F3 : filter_tau 4 [[e0; 0; 5; 0]] (Some 2) = Done [[e0; 0; e1; 0]]).
  { apply filter_row; [rewrite T1; apply filter_c; assumption|discriminate| |lra]. cbn [In]. intros x [<- |[<- |[<- |[<- |[]]]]]; lra. }
  split; [|split; [|split]].
  - intros k0. split; [cbn; lia|]. constructor; [|constructor]. split; [discriminate|cbn; lia].
  - cbn [admissible]. unfold compute. rewrite T0. lra.
  - cbn [admissible]. unfold compute. rewrite T0. lra.
  - exists (mean_exp [[e0; 0; 5; 0]]), (mean_exp [[e0; 0; e1; 0]]), (mean_exp [[e0; 0; e0; 0]]). eexists. eexists. split; [|split].
    + unfold run. cbn [session exec]. unfold get_tau at 1. cbn [lookup cache new_object computed heap app length nth]. unfold compute at 1. rewrite F1.
      cbn [rescaled]. unfold get_tau. cbn [lookup cache store heap update_nth nth]. destruct (key_dec k k) as [_|N]; [|congruence]. cbn [nth].
      unfold size. cbn [concat app length Nat.ltb Nat.leb nth heap store update_nth]. rewrite F3. cbn [rescaled reply]. reflexivity.
    + unfold run. cbn [session exec]. unfold get_tau. cbn [lookup cache new_object computed heap app length nth]. unfold compute at 1. rewrite F2.
      cbn [rescaled reply]. reflexivity.
    + unfold mean_exp, rsum. cbn [concat app map fold_right length]. rewrite X0, Y1, Ropp_0, exp_0. replace (INR 4) with 4 by (cbn; lra).
      assert (m0 < m1) by (unfold m1, m0; lra). lra.
Qed.

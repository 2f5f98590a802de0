(** Histories of statistics with masks and rescaling. *)
From Coq Require Import ZArith Ascii String List Reals Lra Lia Permutation.
From Verif Require Import IndexModel AbsorptionSpec AbsorptionProofs RescaleModel RescaleSpec RescaleProofs FilterModel FilterSpec FilterProofs FluxModel ObserverModel CurveModel
  SessionModel SessionSpec SessionProofs.
Import ListNotations.
Local Open Scope R_scope.

Definition below (t : R) (a : matrix) : Prop := List.Forall (List.Forall (fun x => x <= t)) a.
Definition dimmer (a b : matrix) : Prop := Forall2 (Forall2 (fun x y => y <= x)) a b.
Definition shaped (fuel : nat) (a : matrix) : Prop := (1 < size a)%nat /\ List.Forall (fun r => r <> [] /\ (length r <= fuel)%nat) a.
Definition mean_exp (a : matrix) : R := rsum (map (fun t => exp (- t)) (concat a)) / INR (length (concat a)).

Lemma dimmer_refl : forall a, dimmer a a.
Proof. intros a. induction a as [|r a IH]; constructor; [|exact IH]. induction r; constructor; [lra|assumption]. Qed.

Lemma row_trans : forall a b c : list R, Forall2 (fun x y => y <= x) a b -> Forall2 (fun x y => y <= x) b c -> Forall2 (fun x y => y <= x) a c.
Proof.
  intros a b c H. revert c. induction H as [|x y a b Hx H IH]; intros c G; inversion G; subst; constructor; [lra|apply IH; assumption].
Qed.

Lemma dimmer_trans : forall a b c, dimmer a b -> dimmer b c -> dimmer a c.
Proof.
  intros a b c H. revert c. induction H as [|x y a b Hx H IH]; intros c G; inversion G; subst; constructor; [|apply IH; assumption].
  eapply row_trans; eassumption.
Qed.

Lemma dimmer_concat : forall a b, dimmer a b -> Forall2 (fun x y => y <= x) (concat a) (concat b).
Proof. intros a b H. induction H as [|r r' a b Hr H IH]; cbn [concat]; [constructor|]. apply Forall2_app; assumption. Qed.

Lemma Forall2_len : forall (A B : Type) (P : A -> B -> Prop) a b, Forall2 P a b -> length a = length b.
Proof. intros A B P a b H. induction H; cbn [length]; congruence. Qed.

Lemma exp_sum_dimmer : forall a b, Forall2 (fun x y => y <= x) a b -> rsum (map (fun t => exp (- t)) a) <= rsum (map (fun t => exp (- t)) b).
Proof.
  intros a b H. induction H as [|x y a b Hx H IH]; unfold rsum in *; cbn [map fold_right]; [lra|].
  assert (exp (- x) <= exp (- y)); [|lra]. destruct (Req_dec x y) as [-> |]; [lra|]. left. apply exp_increasing. lra.
Qed.

Lemma mean_dimmer : forall a b, dimmer a b -> (0 < size a)%nat -> mean_exp a <= mean_exp b.
Proof.
  intros a b H Z. apply dimmer_concat in H. unfold mean_exp. rewrite <- (Forall2_len _ _ _ _ _ H). unfold size in Z. apply lt_INR in Z. simpl in Z.
  apply Rmult_le_compat_r; [left; apply Rinv_0_lt_compat; exact Z|]. apply exp_sum_dimmer, H.
Qed.

Lemma mean_pos : forall a, (0 < size a)%nat -> 0 < mean_exp a.
Proof.
  intros a Z. unfold mean_exp, size in *. apply Rdiv_lt_0_compat; [|apply (lt_INR 0), Z].
  destruct (concat a) as [|x l]; [cbn in Z; lia|]. unfold rsum. cbn [map fold_right]. pose proof (exp_pos (- x)).
  assert (0 <= fold_right Rplus 0 (map (fun t => exp (- t)) l)); [|lra]. apply rsum_nonneg. intros y Hy. apply in_map_iff in Hy. destruct Hy as (z & <- & _).
  left. apply exp_pos.
Qed.

Lemma effective_dimmer : forall a b, dimmer a b -> (0 < size a)%nat -> effective_tau b <= effective_tau a.
Proof.
  intros a b H Z. unfold effective_tau. fold (mean_exp a) (mean_exp b).
  pose proof (mean_dimmer a b H Z) as M. pose proof (mean_pos a Z) as P.
  apply Ropp_le_contravar. destruct M as [M|M]; [left; apply ln_increasing; assumption|rewrite M; lra].
Qed.

Lemma dimmer_shaped : forall fuel a b, dimmer a b -> shaped fuel a -> shaped fuel b.
Proof.
  intros fuel a b H [Z F]. split.
  - unfold size in *. rewrite <- (Forall2_len _ _ _ _ _ (dimmer_concat _ _ H)). exact Z.
  - clear Z. induction H as [|r r' a b Hr H IH]; constructor; apply Forall_cons_iff in F; destruct F as [F1 F2].
    + rewrite <- (Forall2_len _ _ _ _ _ Hr). split; [|apply F1]. intros ->. inversion Hr; subst. apply F1. reflexivity.
    + apply IH, F2.
Qed.

Lemma shaped_nonempty : forall fuel a, shaped fuel a -> a <> [].
Proof. intros fuel a [Z _] ->. cbn in Z. lia. Qed.

(** ** Masking *)
Lemma filter_single_off : forall fuel taueff t l, l <> [] -> List.Forall (fun x => x <= t) l -> filter_single fuel taueff t l = Done l.
Proof.
  intros fuel taueff t l N F. destruct (argmax_some l N) as (b & w & E). pose proof (argmax_spec l b w E) as S.
  assert (W : w <= t). { destruct S as (S1 & S2 & _). rewrite Forall_forall in F. apply F. rewrite <- S2. apply nth_In. exact S1. }
  destruct fuel; cbn [filter_single]; rewrite E; destruct (Rlt_dec t w); try lra; reflexivity.
Qed.

Lemma mask_off : forall fuel t a, shaped fuel a -> below t a -> 0 < t -> filter_tau fuel a (Some t) = Done a.
Proof.
  intros fuel t a S B Ht. unfold filter_tau.
  assert (E : filter_rows fuel (effective_tau a) t a = Done a).
  { generalize (effective_tau a). intros e. destruct S as [_ S]. induction a as [|r a IH]; [reflexivity|].
    apply Forall_cons_iff in S. apply Forall_cons_iff in B. destruct S as [S1 S2], B as [B1 B2]. cbn [filter_rows].
    rewrite filter_single_off by (apply S1 || assumption). rewrite IH by assumption. reflexivity. }
  rewrite E. destruct S as [Z _]. unfold size in Z.
  destruct (argmax_some (concat a)) as (b & w & A). { intros X. rewrite X in Z. cbn in Z. lia. }
  rewrite A. destruct (argmax_spec _ _ _ A) as (S1 & S2 & _).
  assert (W : w <= t).
  { assert (In w (concat a)) by (rewrite <- S2; apply nth_In, S1). apply in_concat in H. destruct H as (r & H1 & H2).
    unfold below in B. rewrite Forall_forall in B. specialize (B r H1). rewrite Forall_forall in B. apply B, H2. }
  destruct (Rlt_dec w (t * (101 / 100))); [reflexivity|lra].
Qed.

Lemma masked_dimmer : forall t e r r', masked t (e + 1 / 4) e r r' -> Forall2 (fun x y => y <= x) r r'.
Proof.
  intros t e r r' (L & P).
  assert (Q : forall z, pixel r' z <= pixel r z).
  { intros z. destruct (P z) as [P1 P2]. destruct (Classical_Prop.classic (near_saturated t (e + 1 / 4) r z)) as [H|H]; [|rewrite P2 by exact H; lra].
    rewrite P1 by exact H. destruct H as (d & _ & H). specialize (H 0%Z). rewrite Z.add_0_r in H. lapply H; [lra|]. lia. }
  assert (Q' : forall j, (j < length r)%nat -> nth j r' 0 <= nth j r 0).
  { intros j Hj. specialize (Q (Z.of_nat j)). rewrite !pixel_nat in Q by lia. exact Q. }
  clear P Q. revert r' L Q'. induction r as [|x r IH]; intros [|y r'] L Q; try discriminate; constructor.
  - apply (Q 0%nat). cbn. lia.
  - apply IH; [cbn in L; lia|]. intros j Hj. apply (Q (S j)). cbn. lia.
Qed.

Lemma mask_on : forall fuel t a, shaped fuel a -> effective_tau a + 1 / 4 <= t -> 0 < t ->
  exists b, filter_tau fuel a (Some t) = Done b /\ dimmer a b /\ below t b.
Proof.
  intros fuel t a S E Ht. destruct (C25_array_aux a t fuel (shaped_nonempty fuel a S) (proj2 S) E Ht) as (b & F & H).
  exists b. split; [exact F|]. clear F S E. revert H. generalize (effective_tau a). intros e H. split.
  - induction H as [|r r' a b Hr H IH]; constructor; [apply (masked_dimmer t e), Hr|exact IH].
  - induction H as [|r r' a b Hr H IH]; constructor; [apply Forall_forall; intros x Hx; apply (proj2 Hr), Hx|exact IH].
Qed.

Lemma exp_sum_strict : forall t a b, Forall2 (fun x y => y <= x) a b -> List.Forall (fun y => y <= t) b -> (exists x, In x a /\ t < x) ->
  rsum (map (fun t => exp (- t)) a) < rsum (map (fun t => exp (- t)) b).
Proof.
  intros t a b H. induction H as [|x y a b Hx H IH]; intros B (z & Hz & Tz); [destruct Hz|].
  apply Forall_cons_iff in B. destruct B as [B1 B2]. pose proof (exp_sum_dimmer a b H) as M. unfold rsum in *. cbn [map fold_right].
  destruct Hz as [-> |Hz].
  - assert (exp (- z) < exp (- y)) by (apply exp_increasing; lra). lra.
  - assert (exp (- x) <= exp (- y)). { destruct (Req_dec x y) as [-> |]; [lra|]. left. apply exp_increasing. lra. }
    specialize (IH B2 (ex_intro _ z (conj Hz Tz))). lra.
Qed.

Lemma mean_strict : forall t a b, dimmer a b -> below t b -> (exists x, In x (concat a) /\ t < x) -> mean_exp a < mean_exp b.
Proof.
  intros t a b H B X. apply dimmer_concat in H. unfold mean_exp. rewrite <- (Forall2_len _ _ _ _ _ H).
  apply Rmult_lt_compat_r.
  - apply Rinv_0_lt_compat, (lt_INR 0). destruct X as (x & X & _). destruct (concat a); [destruct X|cbn; lia].
  - apply (exp_sum_strict t); [exact H| |exact X]. clear H X. induction B as [|r b Hr B IH]; [constructor|]. cbn [concat]. apply Forall_app. auto.
Qed.

Section Session.
Variable compute : key -> matrix.
Variable parts : list R -> nat -> list (list R).
Variable fuel : nat.
Variable power3d : R * R * R -> list (R * R * R * R) -> list R.
Variable nbins : nat.
Variables vmax spec_res box dvbin velfac atime light : R.
Hypothesis Reg : regular fuel compute.

Notation exec := (exec compute parts fuel power3d nbins vmax spec_res box dvbin velfac atime light).
Notation session := (session compute parts fuel power3d nbins vmax spec_res box dvbin velfac atime light).
Notation cur := (cur compute).
Notation inv := (inv compute).
Notation base := (base compute).
Notation answer := (answer parts fuel power3d nbins vmax spec_res box dvbin velfac atime light).
Notation final := (final parts fuel).

Lemma session_app : forall qs qs' st, session (qs ++ qs') st =
  match session qs st with
  | None => None
  | Some (l, st1) => match session qs' st1 with None => None | Some (l', st2) => Some (l ++ l', st2) end
  end.
Proof.
  induction qs as [|q qs IH]; intros qs' st; cbn [app SessionModel.session].
  - destruct (session qs' st) as [(l, s)|]; reflexivity.
  - destruct (exec q st) as [(a, st1)|]; [|reflexivity]. rewrite IH. destruct (session qs st1) as [(l, s)|]; [|reflexivity].
    destruct (session qs' s) as [(l', s')|]; reflexivity.
Qed.

Definition dim (st : state) : Prop := inv st /\ forall k, dimmer (compute k) (cur st k).

Lemma dim_new : dim new_object.
Proof. split; [apply (inv_new compute fuel Reg)|]. intros k. apply dimmer_refl. Qed.

Lemma compute_shaped : forall k, shaped fuel (compute k).
Proof. intros k. exact (Reg k). Qed.

Lemma base_dim : forall q st, dim st -> dimmer (compute (about q)) (base q st).
Proof. intros q st [_ D]. unfold SessionProofs.base. destruct (forced q); [apply dimmer_refl|apply D]. Qed.

Lemma admissible_step : forall q a, admissible compute q -> dimmer (compute (about q)) a ->
  exists b, masking fuel q a = Some b /\ final q b = Some b /\ dimmer a b /\
    (forall k t s, q = Ask s k (Some t) -> below t b).
Proof.
  intros [s k th|f k num|k|k sz] a H D; cbn [about] in D.
  - assert (F : forall b, final (Ask s k th) b = Some b). { intros b. cbn. destruct s as [|n d|d w|[d|]]; cbn in *; try reflexivity. contradiction. }
    destruct th as [t|].
    + assert (G : effective_tau (compute k) + 1 / 4 <= t /\ 0 < t) by (destruct s as [|n d|d w|[d|]]; cbn in H; try exact H; contradiction).
      assert (S : shaped fuel a) by (apply (dimmer_shaped fuel _ _ D), compute_shaped).
      pose proof (effective_dimmer _ _ D (Nat.lt_trans _ _ _ Nat.lt_0_1 (proj1 (compute_shaped k)))) as Ef.
      destruct (mask_on fuel t a S) as (b & M1 & M2 & M3); [lra|lra|].
      exists b. cbn [masking]. rewrite M1. split; [reflexivity|]. split; [apply F|]. split; [exact M2|].
      intros k0 t0 s0 E. injection E as _ _ ->. exact M3.
    + exists a. split; [reflexivity|]. split; [apply F|]. split; [apply dimmer_refl|]. intros k0 t0 s0 E. discriminate.
  - exists a. split; [reflexivity|]. split; [reflexivity|]. split; [apply dimmer_refl|]. intros k0 t0 s0 E. discriminate.
  - exists a. split; [reflexivity|]. split; [reflexivity|]. split; [apply dimmer_refl|]. intros k0 t0 s0 E. discriminate.
  - exists a. split; [reflexivity|]. split; [reflexivity|]. split; [apply dimmer_refl|]. intros k0 t0 s0 E. discriminate.
Qed.

Lemma admissible_exec : forall q st, admissible compute q -> dim st ->
  exists b st', exec q st = Some (answer q b, st') /\ masking fuel q (base q st) = Some b /\ dim st' /\ dimmer (base q st) b /\
    cur st' (about q) = b /\ (forall k, k <> about q -> cur st' k = cur st k) /\ (forall k t s, q = Ask s k (Some t) -> below t b).
Proof.
  intros q st H [I D]. destruct (admissible_step q (base q st) H (base_dim q st (conj I D))) as (b & M & F & Dm & B).
  pose proof (exec_spec compute parts fuel power3d nbins vmax spec_res box dvbin velfac atime light Reg q st I) as E. rewrite M, F in E.
  destruct E as (st' & E & G & _).
  assert (Db : dimmer (compute (about q)) b) by (eapply dimmer_trans; [apply (base_dim q st (conj I D))|exact Dm]).
  destruct (G (proj1 (dimmer_shaped fuel _ _ Db (compute_shaped _)))) as (I' & C & O).
  exists b, st'. split; [exact E|]. split; [exact M|]. split.
  - split; [exact I'|]. intros k. destruct (key_dec k (about q)) as [-> |N]; [rewrite C; exact Db|rewrite O by assumption; apply D].
  - auto.
Qed.

(** A history within the limits runs through. *)
Lemma admissible_session : forall qs st, List.Forall (admissible compute) qs -> dim st ->
  exists l st', session qs st = Some (l, st') /\ length l = length qs /\ dim st' /\ forall k, List.Forall (keeps k) qs -> dimmer (cur st k) (cur st' k).
Proof.
  induction qs as [|q qs IH]; intros st H D.
  - exists [], st. repeat split; try apply D; try (intros; apply dimmer_refl).
  - apply Forall_cons_iff in H. destruct H as [H1 H2]. destruct (admissible_exec q st H1 D) as (b & st1 & E & _ & D1 & Db & C & O & _).
    destruct (IH st1 H2 D1) as (l & st2 & E2 & L & D2 & K). exists (answer q b :: l), st2. cbn [SessionModel.session]. rewrite E, E2.
    split; [reflexivity|]. split; [cbn [length]; lia|]. split; [exact D2|]. intros k Hk. apply Forall_cons_iff in Hk. destruct Hk as [K1 K2].
    eapply dimmer_trans; [|apply (K k K2)]. destruct (key_dec k (about q)) as [-> |N]; [|rewrite O by assumption; apply dimmer_refl].
    rewrite C. unfold SessionProofs.base in Db. destruct (forced q) eqn:Fq; [|exact Db].
    destruct q as [s k th|[|] k num|k|k sz]; cbn in Fq; try discriminate. cbn in K1. exfalso. apply K1. reflexivity.
Qed.

(** ** Only a lower threshold has an effect *)
Lemma C107_higher_aux : forall pre s k t mid s' t', List.Forall (admissible compute) pre -> admissible compute (Ask s k (Some t)) ->
  List.Forall (admissible compute) mid -> List.Forall (keeps k) mid -> t <= t' ->
  session (pre ++ Ask s k (Some t) :: mid ++ [Ask s' k (Some t')]) new_object =
  session (pre ++ Ask s k (Some t) :: mid ++ [Ask s' k None]) new_object.
Proof.
  intros pre s k t mid s' t' Hp Hq Hm Hk Ht.
  rewrite !session_app. destruct (admissible_session pre new_object Hp dim_new) as (l & st & E & _ & D & _). rewrite E.
  cbn [SessionModel.session]. destruct (admissible_exec _ st Hq D) as (b & st1 & E1 & _ & D1 & _ & C & _ & B). rewrite E1.
  rewrite !session_app. destruct (admissible_session mid st1 Hm D1) as (l2 & st2 & E2 & _ & D2 & K). rewrite E2.
  specialize (K k Hk). cbn [about] in C. rewrite C in K. specialize (B k t s eq_refl).
  assert (Tp : 0 < t) by (destruct s as [|n d|d w|[d|]]; cbn in Hq; try apply Hq; contradiction).
  assert (B2 : below t' (cur st2 k)).
  { clear -B K Ht. induction K as [|r r' a b Hr K IH]; [constructor|]. inversion B; subst. constructor; [|apply IH; assumption].
    clear -Hr H1 Ht. induction Hr as [|x y r r' Hx Hr IH]; [constructor|]. inversion H1; subst. constructor; [lra|apply IH; assumption]. }
  assert (M : filter_tau fuel (cur st2 k) (Some t') = Done (cur st2 k)).
  { apply mask_off; [|exact B2|lra]. eapply dimmer_shaped; [apply (proj2 D2)|apply compute_shaped]. }
  assert (X : exec (Ask s' k (Some t')) st2 = exec (Ask s' k None) st2).
  { pose proof (exec_spec compute parts fuel power3d nbins vmax spec_res box dvbin velfac atime light Reg (Ask s' k (Some t')) st2 (proj1 D2)) as E3.
    destruct (get_tau_spec compute fuel Reg false k st2 (proj1 D2)) as (r & s3 & Eg & _ & _ & N & _).
    cbn [SessionModel.exec]. rewrite Eg, N, M. reflexivity. }
  cbn [SessionModel.session]. rewrite X. reflexivity.
Qed.

(** ** The mean flux never falls *)
Lemma C107_mean_aux : forall pre k th mid th', List.Forall (admissible compute) (pre ++ Ask MeanFlux k th :: mid ++ [Ask MeanFlux k th']) ->
  List.Forall (keeps k) mid ->
  exists l x l' x' st, session (pre ++ Ask MeanFlux k th :: mid ++ [Ask MeanFlux k th']) new_object = Some (l ++ Some (Number x) :: l' ++ [Some (Number x')], st) /\
    length l = length pre /\ mean_exp (compute k) <= x <= x'.
Proof.
  intros pre k th mid th' H Hk. apply Forall_app in H. destruct H as [Hp H]. apply Forall_cons_iff in H. destruct H as [Hq H].
  apply Forall_app in H. destruct H as [Hm H']. apply Forall_cons_iff in H'. destruct H' as [Hq' _].
  destruct (admissible_session pre new_object Hp dim_new) as (l & st & E & L & D & _).
  destruct (admissible_exec _ st Hq D) as (b & st1 & E1 & _ & D1 & Db & C & _ & B).
  destruct (admissible_session mid st1 Hm D1) as (l2 & st2 & E2 & _ & D2 & K).
  destruct (admissible_exec _ st2 Hq' D2) as (b' & st3 & E3 & _ & D3 & Db' & C' & _ & _).
  exists l, (mean_exp b), l2, (mean_exp b'), st3. split.
  { rewrite session_app, E. cbn [SessionModel.session]. rewrite E1, session_app, E2. cbn [SessionModel.session]. rewrite E3. reflexivity. }
  split; [exact L|]. cbn [about SessionProofs.base forced] in *.
  assert (P : (0 < size (compute k))%nat) by (pose proof (proj1 (compute_shaped k)); lia).
  pose proof (proj2 D1 k) as G1. rewrite C in G1. split.
  - apply mean_dimmer; assumption.
  - apply mean_dimmer; [|apply (dimmer_shaped fuel _ _ G1 (compute_shaped k)) || (pose proof (proj1 (dimmer_shaped fuel _ _ G1 (compute_shaped k))); lia)].
    eapply dimmer_trans; [|exact Db']. specialize (K k Hk). rewrite C in K. exact K.
Qed.

End Session.

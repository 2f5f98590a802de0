(** Proofs about the particle arrays. *)
From Coq Require Import Reals List Bool ZArith Arith Lia Lra.
From Verif Require Import ParticleModel ParticleSpec.
Import ListNotations.
Local Open Scope R_scope.

Lemma gather_picks : forall {A} (arr : list A) ind out,
  gather arr ind = Some out <-> picks arr ind out.
Proof.
  intros A arr. unfold picks. induction ind as [|i ind IH]; intros out; cbn [gather].
  - split; intros H. injection H as <-. constructor. inversion H; auto.
  - destruct (nth_error arr i) as [x|] eqn:E.
    + destruct (gather arr ind) as [xs|] eqn:G.
      * split; intros H.
        -- injection H as <-. constructor; auto. now apply IH.
        -- inversion H as [|? y ? ys P Q]; subst. apply IH in Q. congruence.
      * split; intros H; [discriminate|]. inversion H as [|? y ? ys P Q]; subst.
        apply IH in Q. discriminate.
    + split; intros H; [discriminate|]. inversion H; subst. congruence.
Qed.

Lemma gather_total : forall {A} (arr : list A) ind,
  Forall (fun i => i < length arr)%nat ind -> exists out, gather arr ind = Some out.
Proof.
  intros A arr. induction ind as [|i ind IH]; intros F; cbn [gather]; eauto.
  inversion F; subst. destruct (nth_error arr i) eqn:E.
  - destruct IH as [out ->]; eauto.
  - apply nth_error_None in E. lia.
Qed.

Lemma picks_length : forall {A} (arr : list A) js out, picks arr js out -> length out = length js.
Proof. intros A arr js out P. induction P; cbn [length]; auto. Qed.

Lemma picks_nth : forall {A} (arr : list A) js out k x, picks arr js out ->
  nth_error out k = Some x ->
  exists j, nth_error js k = Some j /\ nth_error arr j = Some x.
Proof.
  intros A arr js out k x P. revert k x. induction P; intros [|k] z E; cbn in *; try discriminate.
  - injection E as <-. eauto.
  - eauto.
Qed.

(** Picking twice. *)
Lemma picks_trans : forall {A} (arr : list A) ind out ind2 out2 js,
  picks arr ind out -> picks out ind2 out2 -> picks ind ind2 js -> picks arr js out2.
Proof.
  intros A arr ind out ind2 out2 js P Q. revert js. unfold picks in *.
  induction Q as [|k x ind2 out2 E Q IH]; intros js J; inversion J; subst; constructor; auto.
  destruct (picks_nth _ _ _ _ _ P E) as (j & E1 & E2). congruence.
Qed.

Lemma where_shift : forall e i, where_positive (S i) e = map S (where_positive i e).
Proof.
  induction e as [|x e IH]; intros i; cbn [where_positive map]; auto.
  destruct (Rlt_dec 0 x); cbn [map]; rewrite IH; auto.
Qed.

Lemma gather_shift : forall {A} (a : A) arr ind, gather (a :: arr) (map S ind) = gather arr ind.
Proof.
  intros A a arr. induction ind as [|i ind IH]; cbn [map gather nth_error]; auto.
  now rewrite IH.
Qed.

Lemma where_filter : forall (keep : nat -> bool) ind e,
  Forall2 (fun j x => keep j = true <-> 0 < x) ind e ->
  gather ind (where_positive 0 e) = Some (filter keep ind).
Proof.
  intros keep ind e F. induction F as [|j x ind e K F IH]; auto.
  cbn [where_positive filter]. rewrite where_shift.
  destruct (Rlt_dec 0 x) as [L | L].
  - rewrite (proj2 K L). cbn [gather nth_error]. rewrite gather_shift, IH. reflexivity.
  - rewrite gather_shift, IH. destruct (keep j); auto. exfalso. apply L, K. reflexivity.
Qed.

Lemma where_range : forall e i, Forall (fun k => i <= k < i + length e)%nat (where_positive i e).
Proof.
  induction e as [|x e IH]; intros i; cbn [where_positive length]; [constructor|].
  assert (Forall (fun k => i <= k < i + S (length e))%nat (where_positive (S i) e)).
  { eapply Forall_impl; [|apply IH]. cbn beta. intros; lia. }
  destruct (Rlt_dec 0 x); auto. constructor; auto. lia.
Qed.

Lemma where_positive_positive : forall e k, In k (where_positive 0 e) ->
  exists x, nth_error e k = Some x /\ 0 < x.
Proof.
  induction e as [|x e IH]; intros k H; cbn [where_positive] in H; [contradiction|].
  rewrite where_shift in H. destruct (Rlt_dec 0 x) as [L | L].
  - destruct H as [<- | H]; [exists x; auto|]. apply in_map_iff in H as (k' & <- & H).
    apply IH in H. exact H.
  - apply in_map_iff in H as (k' & <- & H). apply IH in H. exact H.
Qed.

Lemma fix_temp_spec : forall t, 0 < fix_temp t /\ (0 < t -> fix_temp t = t) /\ (t <= 0 -> fix_temp t = 1).
Proof. intros t. unfold fix_temp. destruct (Rle_dec t 0); repeat split; intros; lra. Qed.

Lemma fix_frac_max : forall f, fix_frac f = Rmax f 0.
Proof.
  intros f. unfold fix_frac. destruct (Rle_dec f 0).
  - symmetry. now apply Rmax_right.
  - symmetry. apply Rmax_left. lra.
Qed.

(** ** Clamping *)

Lemma clamp_array_spec : forall b a, b_lo b <= b_hi b ->
  Forall2 (moved_into b) a (clamp_array b a).
Proof.
  intros b a B. unfold clamp_array. destruct (leaves b a) eqn:L.
  - cbv zeta. rewrite map_map. induction a as [|x a IH]; cbn [map]; constructor.
    + unfold moved_into. destruct (Rlt_dec (b_hi b) x); [destruct (Rlt_dec (b_hi b) (b_lo b))|destruct (Rlt_dec x (b_lo b))];
        repeat split; intros; lra.
    + clear L IH. induction a as [|y a IH]; cbn [map]; constructor; auto.
      unfold moved_into. destruct (Rlt_dec (b_hi b) y); [destruct (Rlt_dec (b_hi b) (b_lo b))|destruct (Rlt_dec y (b_lo b))];
        repeat split; intros; lra.
  - unfold leaves in L. apply orb_false_iff in L as [L1 L2].
    induction a as [|x a IH]; constructor; cbn [existsb] in *.
    + apply orb_false_iff in L1 as [L1 _]. apply orb_false_iff in L2 as [L2 _].
      destruct (Rlt_dec (b_hi b) x); [discriminate|]. destruct (Rlt_dec x (b_lo b)); [discriminate|].
      unfold moved_into. repeat split; intros; lra.
    + apply orb_false_iff in L1 as [_ L1]. apply orb_false_iff in L2 as [_ L2]. auto.
Qed.

Lemma Forall2_length' : forall {A B} (P : A -> B -> Prop) l m, Forall2 P l m -> length l = length m.
Proof. intros A B P l m F. induction F; cbn [length]; auto. Qed.

Lemma zip_spec : forall f a b, length a = length b ->
  length (zip f a b) = length a /\
  forall k x y, nth_error a k = Some x -> nth_error b k = Some y ->
    nth_error (zip f a b) k = Some (f x y).
Proof.
  intros f. induction a as [|x a IH]; intros [|y b] L; cbn [zip length] in *; try discriminate.
  - split; auto. intros [|]; discriminate.
  - injection L as L. destruct (IH b L) as [LL N]. split; [lia|].
    intros [|k] u v; cbn [nth_error]; auto. congruence.
Qed.

Lemma Forall2_nth_e : forall {A B} (P : A -> B -> Prop) l m, Forall2 P l m ->
  forall k x, nth_error l k = Some x -> exists y, nth_error m k = Some y /\ P x y.
Proof.
  intros A B P l m F. induction F; intros [|k] z E; cbn in *; try discriminate; eauto.
  injection E as <-. eauto.
Qed.

Lemma C46_table_aux : forall tb den temp,
  b_lo (t_dens tb) <= b_hi (t_dens tb) -> b_lo (t_temp tb) <= b_hi (t_temp tb) ->
  length den = length temp ->
  length (get_elem_den tb den temp) = length den /\
  forall k d t, nth_error den k = Some d -> nth_error temp k = Some t ->
    exists d' t', moved_into (t_dens tb) d d' /\ moved_into (t_temp tb) t t' /\
      nth_error (get_elem_den tb den temp) k = Some (t_ion tb d' t').
Proof.
  intros tb den temp B1 B2 L. unfold get_elem_den.
  pose proof (clamp_array_spec _ den B1) as C1. pose proof (clamp_array_spec _ temp B2) as C2.
  destruct (zip_spec (t_ion tb) (clamp_array (t_dens tb) den) (clamp_array (t_temp tb) temp)) as [LL N].
  { rewrite <- (Forall2_length' _ _ _ C1), <- (Forall2_length' _ _ _ C2). exact L. }
  split. { rewrite LL. symmetry. apply (Forall2_length' _ _ _ C1). }
  intros k d t D T.
  destruct (Forall2_nth_e _ _ _ C1 _ _ D) as (d' & D' & M1).
  destruct (Forall2_nth_e _ _ _ C2 _ _ T) as (t' & T' & M2).
  exists d', t'. auto.
Qed.

(** ** Reading *)

(** The mass density of the element of particle [j], as computed *)
Definition elem_at (q : request) (s : segment) (j : nat) : option R :=
  match nth_error (s_rho s) j, nth_error (s_frac s) j with
  | Some r, Some f => Some (r * r_rscale q * Rmax f 0)
  | _, _ => None
  end.

Definition carries (q : request) (s : segment) (j : nat) : bool :=
  match elem_at q s j with
  | Some e => if Rlt_dec 0 e then true else false
  | None => false
  end.

Lemma carries_spec : forall q s j rho f, has s j rho f ->
  (carries q s j = true <-> 0 < rho * r_rscale q * f).
Proof.
  intros q s j rho f (A & raw & B & ->). unfold carries, elem_at. rewrite A, B.
  destruct (Rlt_dec 0 (rho * r_rscale q * Rmax raw 0)); split; intros; auto; try discriminate; contradiction.
Qed.

Lemma elem_array : forall q s ind den frac,
  picks (s_rho s) ind den -> picks (s_frac s) ind frac ->
  Forall2 (fun j x => elem_at q s j = Some x) ind
    (zip Rmult (map (fun d => d * r_rscale q) den) (map fix_frac frac)).
Proof.
  intros q s ind den frac P. revert frac. induction P as [|j d ind den E P IH]; intros frac Q;
    inversion Q as [|? f ? frac' F Q']; subst; cbn [map zip]; constructor; auto.
  unfold elem_at. now rewrite E, F, fix_frac_max.
Qed.

Lemma Forall2_map_r : forall {A B C} (P : A -> C -> Prop) (f : B -> C) l m,
  Forall2 (fun a b => P a (f b)) l m -> Forall2 P l (map f m).
Proof. intros A B C P f l m F. induction F; cbn [map]; constructor; auto. Qed.

Lemma Forall2_impl' : forall {A B} (P Q : A -> B -> Prop) l m,
  (forall a b, P a b -> Q a b) -> Forall2 P l m -> Forall2 Q l m.
Proof. intros A B P Q l m H F. induction F; constructor; auto. Qed.

Lemma elem_has : forall q s j e, elem_at q s j = Some e ->
  exists rho f, has s j rho f /\ e = rho * r_rscale q * f.
Proof.
  intros q s j e H. unfold elem_at in H.
  destruct (nth_error (s_rho s) j) as [r|] eqn:A; [|discriminate].
  destruct (nth_error (s_frac s) j) as [f|] eqn:B; [|discriminate].
  injection H as <-. exists r, (Rmax f 0). split; auto. split; eauto.
Qed.

Lemma zip_Forall2 : forall {A} (P Q T : A -> R -> Prop) (f : R -> R -> R) l a b,
  Forall2 P l a -> Forall2 Q l b ->
  (forall j x y, In j l -> P j x -> Q j y -> T j (f x y)) ->
  Forall2 T l (zip f a b).
Proof.
  intros A P Q T f l a b F. revert b. induction F; intros b G HH; inversion G; subst; cbn [zip]; constructor.
  - apply HH; cbn; auto.
  - apply IHF; auto. intros; apply HH; cbn; auto.
Qed.

Lemma picks_in : forall {A} (arr : list A) js out, picks arr js out ->
  forall j, In j js -> exists x, nth_error arr j = Some x.
Proof.
  intros A arr js out P. induction P; intros j []; subst; eauto.
Qed.

Lemma wants_needs : forall q, wants_temp q <-> needs_temp q = true.
Proof.
  intros q. unfold wants_temp, needs_temp. rewrite orb_true_iff, andb_true_iff, !negb_true_iff.
  rewrite Z.eqb_neq. tauto.
Qed.

Lemma neutral_b : forall q, neutral_hydrogen q <-> r_hydrogen q && Z.eqb (r_ion q) 1 = true.
Proof. intros q. unfold neutral_hydrogen. now rewrite andb_true_iff, Z.eqb_eq. Qed.

Lemma whole_b : forall q, whole_element q <-> Z.eqb (r_ion q) (-1) = true.
Proof. intros q. unfold whole_element. now rewrite Z.eqb_eq. Qed.

Definition outcome_ok (tb : table) (q : request) (s : segment) (ind : list nat)
  (r : read_result) : Prop :=
  match r with
  | Nothing => selects q s ind []
  | IndexError => r_hydrogen q = true /\ one_ion q /\ r_tau q = false
  | Read a => exists js, js <> [] /\ selects q s ind js /\ describe tb q (tag s js) a
  end.

Lemma Forall2_tag : forall {B} (P : segment -> nat -> B -> Prop) s js l,
  Forall2 (P s) js l <-> Forall2 (fun p x => P (fst p) (snd p) x) (tag s js) l.
Proof.
  intros B P s js l. unfold tag. split; intros H.
  - induction H; cbn [map]; constructor; auto.
  - revert l H. induction js as [|j js IH]; intros l H; inversion H; subst; constructor; auto.
Qed.

Lemma describe_one : forall tb q s js a,
  picks (s_pos s) js (a_pos a) -> picks (s_hh s) js (a_hh a) ->
  Forall2 (density_of tb q s) js (a_den a) ->
  (r_tau q = true -> picks (s_vel s) js (a_vel a)) ->
  (needs_temp q = true -> Forall2 (temp_of s) js (a_temp a) /\ Forall (fun t => 0 < t) (a_temp a)) ->
  describe tb q (tag s js) a.
Proof.
  intros tb q s js a H1 H2 H3 H4 H5. unfold describe. repeat split.
  - apply (Forall2_tag (fun s j x => nth_error (s_pos s) j = Some x)). exact H1.
  - apply (Forall2_tag (fun s j x => nth_error (s_hh s) j = Some x)). exact H2.
  - apply (Forall2_tag (density_of tb q)). exact H3.
  - intros T. apply (Forall2_tag (fun s j x => nth_error (s_vel s) j = Some x)). exact (H4 T).
  - intros T. apply wants_needs in T. destruct (H5 T) as [A B].
    apply (Forall2_tag (fun s j x => temp_of s j x /\ 0 < x)).
    clear - A B. induction A; constructor; inversion B; subst; auto.
Qed.

Lemma C45_read_aux : forall tb q s n ind,
  complete s n -> Forall (fun i => i < n)%nat ind ->
  b_lo (t_dens tb) <= b_hi (t_dens tb) -> b_lo (t_temp tb) <= b_hi (t_temp tb) ->
  outcome_ok tb q s ind (read_indexed tb q s ind).
Proof.
  intros tb q s n ind (L1 & L2 & L3 & L4 & L5 & L6 & L7) IN B1 B2.
  assert (TOT : forall {A} (arr : list A), length arr = n -> exists out, gather arr ind = Some out /\ picks arr ind out).
  { intros A arr L. destruct (gather_total arr ind) as [out E]; [now rewrite L|].
    exists out. split; auto. now apply gather_picks. }
  destruct ind as [|i0 ind0] eqn:IE. { cbn. exists (fun _ => true). split; auto. split; auto. intros _ j rho f []. }
  rewrite <- IE in *. assert (NE : ind <> []) by (rewrite IE; discriminate).
  destruct (TOT _ _ L1) as (pos & E1 & P1). destruct (TOT _ _ L2) as (hh & E2 & P2).
  destruct (TOT _ _ L3) as (vel & E3 & P3). destruct (TOT _ _ L4) as (den & E4 & P4).
  destruct (TOT _ _ L5) as (temp & E5 & P5). destruct (TOT _ _ L6) as (frac & E6 & P6).
  destruct (TOT _ _ L7) as (hi & E7 & P7).
  pose proof (elem_array q s ind den frac P4 P6) as EL.
  set (elem := zip Rmult (map (fun d => d * r_rscale q) den) (map fix_frac frac)) in *.
  set (VEL := if r_tau q then vel else [(0, 0, 0)]).
  set (TEMP := if needs_temp q then map fix_temp temp else [0]).
  assert (TEMPS : Forall2 (temp_of s) ind (map fix_temp temp) /\ Forall (fun t => 0 < t) (map fix_temp temp)).
  { split.
    - apply Forall2_map_r. eapply Forall2_impl'; [|exact P5]. cbn beta. intros j t E.
      exists t. split; auto. split; apply fix_temp_spec.
    - apply Forall_forall. intros t H. apply in_map_iff in H as (t0 & <- & _). apply fix_temp_spec. }
  assert (RW : read_indexed tb q s ind =
    if r_hydrogen q && Z.eqb (r_ion q) 1 then
      Read (Arrays pos VEL (map (fun e => e / r_mass q) (zip Rmult elem hi)) TEMP hh)
    else if negb (Z.eqb (r_ion q) (-1)) then
      match where_positive 0 elem with
      | [] => Nothing
      | ind2 =>
        bind (gather TEMP ind2) (fun temp2 =>
        bind (gather pos ind2) (fun pos2 =>
        bind (gather hh ind2) (fun hh2 =>
        bind (if r_tau q then gather VEL ind2 else Some VEL) (fun vel2 =>
        bind (gather elem ind2) (fun elem2 =>
        bind (gather den ind2) (fun den2 =>
        Read (Arrays pos2 vel2
          (map (fun e => e / r_mass q) (zip Rmult elem2 (get_elem_den tb den2 temp2)))
          temp2 hh2)))))))
      end
    else Read (Arrays pos VEL (map (fun e => e / r_mass q) elem) TEMP hh)).
  { unfold read_indexed. rewrite IE at 1. cbn [bind]. rewrite E1. cbn [bind]. rewrite E2. cbn [bind].
    assert ((if r_tau q then gather (s_vel s) ind else Some [(0, 0, 0)]) = Some VEL) as ->.
    { unfold VEL. destruct (r_tau q); auto. }
    cbn [bind]. rewrite E4. cbn [bind].
    assert ((if needs_temp q then option_map (map fix_temp) (gather (s_temp s) ind) else Some [0]) = Some TEMP) as ->.
    { unfold TEMP. destruct (needs_temp q); auto. rewrite E5. reflexivity. }
    cbn [bind]. rewrite E6. cbn [bind]. rewrite E7. reflexivity. }
  rewrite RW. clear RW.
  destruct (r_hydrogen q && Z.eqb (r_ion q) 1) eqn:HI; [|destruct (Z.eqb (r_ion q) (-1)) eqn:ALL]; cbn [negb].
  - (* neutral hydrogen *)
    assert (NH : neutral_hydrogen q) by (now apply neutral_b).
    cbn [outcome_ok]. exists ind. split; auto. split.
    { exists (fun _ => true). split; [|split; [auto | intros [XX _]; contradiction]].
      clear. induction ind as [|x l IH]; cbn [filter]; congruence. }
    apply describe_one; cbn [a_pos a_hh a_vel a_temp a_den]; auto.
    2: { intros T. unfold VEL. now rewrite T. }
    2: { intros T. unfold TEMP. now rewrite T. }
    apply Forall2_map_r.
    eapply (zip_Forall2 (fun j x => elem_at q s j = Some x) (fun j x => nth_error (s_hi s) j = Some x)); eauto.
    intros j x y _ X Y. destruct (elem_has _ _ _ _ X) as (rho & f & H & ->).
    exists rho, f. split; auto. split; [|split].
    + intros _. exists y. auto.
    + intros W. exfalso. destruct NH as [_ NH]. unfold whole_element in W. rewrite NH in W. discriminate.
    + intros [XX _]. contradiction.
  - (* all of the element *)
    apply whole_b in ALL. cbn [outcome_ok]. exists ind. split; auto. split.
    { exists (fun _ => true). split; [|split; [auto | intros [_ XX]; contradiction]].
      clear. induction ind as [|x l IH]; cbn [filter]; congruence. }
    apply describe_one; cbn [a_pos a_hh a_vel a_temp a_den]; auto.
    2: { intros T. unfold VEL. now rewrite T. }
    2: { intros T. unfold TEMP. now rewrite T. }
    apply Forall2_map_r. eapply Forall2_impl'; [|exact EL]. cbn beta. intros j x X.
    destruct (elem_has _ _ _ _ X) as (rho & f & H & ->).
    exists rho, f. split; auto. split; [|split].
    + intros NH. apply neutral_b in NH. congruence.
    + reflexivity.
    + intros [_ XX]. contradiction.
  - (* one ion *)
    assert (ONE : one_ion q).
    { split; intros X; [apply neutral_b in X | apply whole_b in X]; congruence. }
    assert (KEEP : Forall2 (fun j x => carries q s j = true <-> 0 < x) ind elem).
    { eapply Forall2_impl'; [|exact EL]. cbn beta. intros j x X.
      destruct (elem_has _ _ _ _ X) as (rho & f & H & ->). now apply carries_spec. }
    pose proof (where_filter _ _ _ KEEP) as WF. apply gather_picks in WF.
    assert (LE : length elem = length ind) by (symmetry; eapply Forall2_length'; eauto).
    pose proof (where_range elem 0) as WR. rewrite LE in WR. cbn [Nat.add] in WR.
    destruct (where_positive 0 elem) as [|k0 ks] eqn:W.
    + (* nothing carries the element *)
      cbn [outcome_ok]. exists (carries q s). split; [inversion WF; auto|]. split.
      * intros X. contradiction.
      * intros _ j rho f _ H. now apply carries_spec.
    + set (ind2 := k0 :: ks) in *.
      assert (G2 : forall {A} (out : list A), length out = length ind -> exists out2, gather out ind2 = Some out2 /\ picks out ind2 out2).
      { intros A out L. destruct (gather_total out ind2) as [out2 E].
        - rewrite L. eapply Forall_impl; [|exact WR]. cbn beta. intros; lia.
        - exists out2. split; auto. now apply gather_picks. }
      destruct (gather TEMP ind2) as [temp2|] eqn:GT; cbn [bind].
      * destruct (G2 _ pos) as (pos2 & F1 & Q1); [now apply picks_length in P1|].
        destruct (G2 _ hh) as (hh2 & F2 & Q2); [now apply picks_length in P2|].
        destruct (G2 _ elem LE) as (elem2 & F4 & Q4).
        destruct (G2 _ den) as (den2 & F5 & Q5); [now apply picks_length in P4|].
        rewrite F1, F2, F4, F5. cbn [bind].
        assert (VV : exists vel2, (if r_tau q then gather VEL ind2 else Some VEL) = Some vel2 /\
                   (r_tau q = true -> picks (s_vel s) (filter (carries q s) ind) vel2)).
        { unfold VEL. destruct (r_tau q).
          - destruct (G2 _ vel) as (vel2 & F3 & Q3); [now apply picks_length in P3|].
            exists vel2. split; auto. intros _. eapply picks_trans; eauto.
          - eexists. split; eauto. discriminate. }
        destruct VV as (vel2 & -> & Q3). cbn [bind].
        cbn [outcome_ok]. exists (filter (carries q s) ind).
        split. { inversion WF; discriminate. }
        split. { exists (carries q s). split; auto. split.
          - intros X. contradiction.
          - intros _ j rho f _ H. now apply carries_spec. }
        assert (TP : needs_temp q = true -> Forall2 (temp_of s) (filter (carries q s) ind) temp2 /\ Forall (fun t => 0 < t) temp2).
        { intros T. unfold TEMP in GT. rewrite T in GT. apply gather_picks in GT.
          destruct TEMPS as [T1 T2]. split.
          - clear - GT WF T1. unfold picks in *. revert GT. generalize dependent temp2.
            induction WF as [|k j ks' js E WF IH]; intros t2 GT; inversion GT; subst; constructor; auto.
            destruct (Forall2_nth_e _ _ _ T1 _ _ E) as (y0 & Y & YY). congruence.
          - apply Forall_forall. intros t H. apply In_nth_error in H as [m H].
            destruct (picks_nth _ _ _ _ _ GT H) as (k & _ & E).
            rewrite Forall_forall in T2. apply T2. eapply nth_error_In; eauto. }
        apply describe_one; cbn [a_pos a_hh a_vel a_temp a_den]; auto;
          try solve [eapply picks_trans; eauto].
        (* densities *)
        assert (LT : length den2 = length temp2).
        { rewrite (picks_length _ _ _ Q5). apply gather_picks in GT. now rewrite (picks_length _ _ _ GT). }
        destruct (C46_table_aux tb den2 temp2 B1 B2 LT) as [LG CG].
        pose proof (picks_trans _ _ _ _ _ _ P4 Q5 WF) as PD.
        assert (PE : Forall2 (fun j x => elem_at q s j = Some x) (filter (carries q s) ind) elem2).
        { clear - Q4 WF EL. unfold picks in *. revert Q4. generalize dependent elem2.
          induction WF as [|k j ks' js E WF IH]; intros t2 GT; inversion GT; subst; constructor; auto.
          destruct (Forall2_nth_e _ _ _ EL _ _ E) as (y0 & Y & YY). congruence. }
        set (js := filter (carries q s) ind) in *.
        assert (LJ : length js = length den2) by (symmetry; now apply picks_length in PD).
        assert (PT : Forall2 (fun j x => exists rho t0 d t, nth_error (s_rho s) j = Some rho /\ temp_of s j t0 /\
             moved_into (t_dens tb) rho d /\ (needs_temp q = true -> moved_into (t_temp tb) t0 t) /\ x = t_ion tb d t)
             js (get_elem_den tb den2 temp2)).
        { assert (SUB : forall j, In j js -> exists t0, temp_of s j t0).
          { intros j J. unfold js in J. apply filter_In in J as [J _].
            destruct (picks_in _ _ _ P5 j J) as [t E]. exists (fix_temp t), t. split; auto. split; apply fix_temp_spec. }
          assert (AUX : forall m j x, nth_error js m = Some j -> nth_error (get_elem_den tb den2 temp2) m = Some x ->
             exists rho t0 d t, nth_error (s_rho s) j = Some rho /\ temp_of s j t0 /\
             moved_into (t_dens tb) rho d /\ (needs_temp q = true -> moved_into (t_temp tb) t0 t) /\ x = t_ion tb d t).
          { intros m j x J X.
            assert (M : (m < length den2)%nat) by (rewrite <- LJ; apply nth_error_Some; congruence).
            destruct (nth_error den2 m) as [d|] eqn:D; [|apply nth_error_None in D; lia].
            destruct (nth_error temp2 m) as [t|] eqn:T; [|apply nth_error_None in T; lia].
            destruct (CG m d t D T) as (d' & t' & M1 & M2 & X').
            destruct (picks_nth _ _ _ _ _ PD D) as (j' & J' & RJ). assert (j' = j) by congruence. subst j'.
            destruct (needs_temp q) eqn:NT.
            - destruct (TP eq_refl) as [T1 _].
              destruct (Forall2_nth_e _ _ _ T1 _ _ J) as (t1 & TT & TO). assert (t1 = t) by congruence. subst t1.
              exists d, t, d', t'. split; [exact RJ|]. split; [exact TO|]. split; [exact M1|]. split; [auto|congruence].
            - destruct (SUB j) as [t0 TO]. { eapply nth_error_In; eauto. }
              exists d, t0, d', t'. split; [exact RJ|]. split; [exact TO|]. split; [exact M1|]. split; [discriminate|congruence]. }
          assert (LL : length js = length (get_elem_den tb den2 temp2)) by congruence.
          revert AUX LL. generalize (get_elem_den tb den2 temp2). clear. induction js as [|j js IH]; intros [|x l] AUX LL; cbn [length] in LL; try discriminate; constructor.
          - apply (AUX 0%nat); reflexivity.
          - apply IH; [|lia]. intros m. apply (AUX (S m)). }
        apply Forall2_map_r. eapply zip_Forall2; [exact PE | exact PT |].
        intros j x y _ X (rho & t0 & d & t & R1 & TO & MD & MT & ->).
        destruct (elem_has _ _ _ _ X) as (rho' & f & H & ->).
        assert (rho' = rho) by (destruct H; congruence). subst rho'.
        exists rho, f. split; auto. split; [|split].
        -- intros NH. destruct ONE; contradiction.
        -- intros WW. destruct ONE; contradiction.
        -- intros _. exists d, t, t0. split; auto. split; auto. split; auto.
           intros WT. apply MT. now apply wants_needs.
      * (* the temperatures were not read *)
        cbn [outcome_ok]. unfold TEMP in GT. destruct (needs_temp q) eqn:NT.
        { destruct (G2 _ (map fix_temp temp)) as (o & E & _).
          - rewrite map_length. now apply picks_length in P5.
          - congruence. }
        unfold needs_temp in NT. apply orb_false_iff in NT as [NT1 NT2]. rewrite ALL in NT2.
        cbn [negb andb] in NT2. apply negb_false_iff in NT2. auto.
Qed.

(** ** Consequences *)

Lemma C45_nonneg_aux : forall tb q who a, describe tb q who a ->
  0 <= r_rscale q -> 0 < r_mass q ->
  (forall d t, 0 <= t_ion tb d t) ->
  (forall s j, In (s, j) who -> Forall (fun x => 0 <= x) (s_rho s) /\ Forall (fun x => 0 <= x) (s_hi s)) ->
  Forall (fun x => 0 <= x) (a_den a).
Proof.
  intros tb q who a (_ & _ & D & _) RS M ION POS.
  induction D as [|p x who l D DD IH]; constructor.
  - destruct p as [s j]. destruct (POS s j) as [P1 P2]; [cbn; auto|]. cbn [fst snd] in D.
    rewrite Forall_forall in P1, P2.
    destruct D as (rho & f & H & D1 & D2 & D3).
    assert (RF : 0 <= rho * r_rscale q * f).
    { destruct H as (A & raw & _ & ->). apply Rmult_le_pos; [apply Rmult_le_pos|]; auto.
      - apply P1. eapply nth_error_In; eauto.
      - apply Rmax_r. }
    assert (DIV : forall y, 0 <= y -> 0 <= y / r_mass q).
    { intros y Y. apply Rmult_le_pos; auto. apply Rlt_le, Rinv_0_lt_compat, M. }
    destruct (r_hydrogen q && Z.eqb (r_ion q) 1) eqn:HI.
    + apply neutral_b in HI. destruct (D1 HI) as (hi & E & ->). apply DIV, Rmult_le_pos; auto.
      apply P2. eapply nth_error_In; eauto.
    + destruct (Z.eqb (r_ion q) (-1)) eqn:AL.
      * apply whole_b in AL. rewrite (D2 AL). auto.
      * destruct D3 as (d & t & t0 & _ & _ & _ & ->).
        { split; intros X; [apply neutral_b in X | apply whole_b in X]; congruence. }
        apply DIV, Rmult_le_pos; auto.
  - apply IH. intros s j H. apply (POS s j). now right.
Qed.

Lemma describe_app : forall tb q w1 w2 a b, describe tb q w1 a -> describe tb q w2 b ->
  describe tb q (w1 ++ w2) (append_arrays q a b).
Proof.
  intros tb q w1 w2 a b (A1 & A2 & A3 & A4 & A5) (B1 & B2 & B3 & B4 & B5).
  unfold describe, append_arrays. cbn [a_pos a_hh a_vel a_temp a_den].
  split; [now apply Forall2_app|]. split; [now apply Forall2_app|]. split; [now apply Forall2_app|].
  split.
  - intros T. rewrite T. apply Forall2_app; auto.
  - intros T. pose proof T as T'. apply wants_needs in T'. rewrite T'. apply Forall2_app; auto.
Qed.

(** The particles of the sightlines, segment by segment. *)
Definition whole_ok (tb : table) (q : request) (done : list (segment * list nat)) (r : read_result) : Prop :=
  match r with
  | IndexError => r_hydrogen q = true /\ one_ion q /\ r_tau q = false
  | Nothing => Forall (fun p => selects q (fst p) (snd p) []) done
  | Read a => exists jss, Forall2 (fun p js => selects q (fst p) (snd p) js) done jss /\
      concat jss <> [] /\
      describe tb q (concat (map (fun pj => tag (fst (fst pj)) (snd pj)) (combine done jss))) a
  end.

Lemma Forall2_snoc : forall {A B} (P : A -> B -> Prop) l m x y,
  Forall2 P l m -> P x y -> Forall2 P (l ++ [x]) (m ++ [y]).
Proof. intros. apply Forall2_app; auto. Qed.

Lemma combine_snoc : forall {A B} (l : list A) (m : list B) x y, length l = length m ->
  combine (l ++ [x]) (m ++ [y]) = combine l m ++ [(x, y)].
Proof.
  intros A B. induction l as [|a l IH]; intros [|b m] x y L; cbn in *; try discriminate; auto.
  now rewrite IH by lia.
Qed.

Lemma nothing_tags : forall {X} (done : list (segment * X)),
  concat (map (fun pj : segment * X * list nat => tag (fst (fst pj)) (snd pj))
    (combine done (map (fun _ => []) done))) = [].
Proof. intros X. induction done as [|p d IH]; cbn; auto. Qed.

Lemma add_segment_ok : forall tb q done r s ind,
  whole_ok tb q done r -> outcome_ok tb q s ind (read_indexed tb q s ind) ->
  whole_ok tb q (done ++ [(s, ind)]) (add_segment q r (read_indexed tb q s ind)).
Proof.
  intros tb q done r s ind W O. destruct (read_indexed tb q s ind) as [b| |]; destruct r as [a| |];
    cbn [add_segment]; auto.
  - destruct W as (jss & S1 & N1 & D1). destruct O as (js & N2 & S2 & D2).
    exists (jss ++ [js]). split; [now apply Forall2_snoc|]. split.
    + rewrite concat_app. intros E. apply app_eq_nil in E as [E _]. contradiction.
    + rewrite combine_snoc by (eapply Forall2_length'; eauto).
      rewrite map_app, concat_app. cbn [map concat fst snd]. rewrite app_nil_r.
      now apply describe_app.
  - cbn [whole_ok] in *. destruct O as (js & N2 & S2 & D2).
    exists (map (fun _ => []) done ++ [js]). split; [|split].
    + apply Forall2_snoc; auto. clear - W. induction W; cbn [map]; constructor; auto.
    + rewrite concat_app. cbn [concat]. rewrite app_nil_r. intros E. apply app_eq_nil in E as [_ E]. contradiction.
    + rewrite combine_snoc by (now rewrite map_length).
      rewrite map_app, concat_app, nothing_tags. cbn [map concat fst snd app]. now rewrite app_nil_r.
  - destruct W as (jss & S1 & N1 & D1).
    exists (jss ++ [[]]). split; [now apply Forall2_snoc|]. split.
    + rewrite concat_app. cbn [concat]. now rewrite !app_nil_r.
    + rewrite combine_snoc by (eapply Forall2_length'; eauto).
      rewrite map_app, concat_app. cbn [map concat fst snd tag]. now rewrite !app_nil_r.
  - cbn [whole_ok outcome_ok] in *. apply Forall_app. split; auto.
Qed.

Lemma C45_all_aux : forall tb q first rest,
  b_lo (t_dens tb) <= b_hi (t_dens tb) -> b_lo (t_temp tb) <= b_hi (t_temp tb) ->
  Forall (fun p => exists n, complete (fst p) n /\ Forall (fun i => i < n)%nat (snd p)) (first :: rest) ->
  whole_ok tb q (first :: rest)
    (load_all_arrays q (read_indexed tb q (fst first) (snd first))
       (map (fun p => read_indexed tb q (fst p) (snd p)) rest)).
Proof.
  intros tb q first rest B1 B2 F. inversion F as [|? ? (n & C & I) F']; subst.
  assert (W : whole_ok tb q [first] (read_indexed tb q (fst first) (snd first))).
  { pose proof (C45_read_aux tb q _ _ _ C I B1 B2) as O.
    destruct (read_indexed tb q (fst first) (snd first)) as [a| |]; cbn [whole_ok outcome_ok] in *; auto.
    destruct O as (js & N & SS & D). exists [js]. split; auto. cbn. rewrite !app_nil_r. auto. }
  clear n C I F. unfold load_all_arrays.
  change (first :: rest) with ([first] ++ rest). revert W.
  generalize (read_indexed tb q (fst first) (snd first)). generalize [first].
  induction F' as [|[s ind] rest (n & C & I) F' IH]; intros done r W; cbn [map fold_left].
  - now rewrite app_nil_r.
  - change ((s, ind) :: rest) with ([(s, ind)] ++ rest). rewrite app_assoc. apply IH.
    cbn [fst snd] in *. apply add_segment_ok; auto. eapply C45_read_aux; eauto.
Qed.

(** ** The cache of index lists *)

Definition coherent (segs : nat -> segment) near (c : cache) : Prop :=
  forall fn ind, lookup fn c = Some ind -> ind = near (s_pos (segs fn)) (s_hh (segs fn)).

Lemma C45_cache_inv : forall segs near ks c, coherent segs near c ->
  Forall (fun k => k_final k = true -> k_near k = near) ks ->
  run_calls segs c ks =
  map (fun k => read_indexed (k_table k) (k_request k) (segs (k_segment k))
         (k_near k (s_pos (segs (k_segment k))) (s_hh (segs (k_segment k))))) ks.
Proof.
  intros segs near. induction ks as [|k ks IH]; intros c C F; auto.
  inversion F as [|? ? K F']; subst. cbn [run_calls map].
  unfold read_particle_data, find_index. destruct (k_final k) eqn:FIN.
  - rewrite (K eq_refl). destruct (lookup (k_segment k) c) as [ind|] eqn:L.
    + rewrite (C _ _ L). f_equal. now apply IH.
    + f_equal. apply IH; auto. intros fn ind. cbn [lookup].
      destruct (Nat.eqb (k_segment k) fn) eqn:E; [|apply C].
      apply Nat.eqb_eq in E. subst fn. intros X. now injection X as <-.
  - f_equal. now apply IH.
Qed.

Lemma C45_cache_aux : forall segs near ks,
  Forall (fun k => k_final k = true -> k_near k = near) ks ->
  run_calls segs [] ks =
  map (fun k => read_indexed (k_table k) (k_request k) (segs (k_segment k))
         (k_near k (s_pos (segs (k_segment k))) (s_hh (segs (k_segment k))))) ks.
Proof. intros segs near ks F. apply (C45_cache_inv segs near); auto. intros fn ind. discriminate. Qed.

(** ** Ionised hydrogen without optical depth *)

Lemma gather_none : forall {A} (arr : list A) ind i, In i ind -> (length arr <= i)%nat ->
  gather arr ind = None.
Proof.
  intros A arr. induction ind as [|j ind IH]; intros i [] L; cbn [gather].
  - subst. apply nth_error_None in L. now rewrite L.
  - rewrite (IH i) by auto. destruct (nth_error arr j); auto.
Qed.

Lemma C45_hii_aux : forall tb q s n ind,
  complete s n -> Forall (fun i => i < n)%nat ind ->
  r_hydrogen q = true -> r_ion q <> 1%Z -> r_ion q <> (-1)%Z -> r_tau q = false ->
  (exists k j rho f, nth_error ind (S k) = Some j /\ has s j rho f /\ 0 < rho * r_rscale q * f) ->
  read_indexed tb q s ind = IndexError.
Proof.
  intros tb q s n ind (L1 & L2 & L3 & L4 & L5 & L6 & L7) IN HY I1 I2 TAU (k & j & rho & f & J & H & POS).
  assert (TOT : forall {A} (arr : list A), length arr = n -> exists out, gather arr ind = Some out /\ picks arr ind out).
  { intros A arr L. destruct (gather_total arr ind) as [out E]; [now rewrite L|].
    exists out. split; auto. now apply gather_picks. }
  destruct ind as [|i0 ind0] eqn:IE. { destruct k; discriminate. }
  rewrite <- IE in *.
  destruct (TOT _ _ L1) as (pos & E1 & P1). destruct (TOT _ _ L2) as (hh & E2 & P2).
  destruct (TOT _ _ L4) as (den & E4 & P4). destruct (TOT _ _ L6) as (frac & E6 & P6).
  pose proof (elem_array q s ind den frac P4 P6) as EL.
  unfold read_indexed. rewrite IE at 1. rewrite E1, E2, TAU. cbn [bind]. rewrite E4. cbn [bind].
  assert (NT : needs_temp q = false) by (unfold needs_temp; rewrite TAU, HY; cbn; apply andb_false_r).
  rewrite NT. cbn [bind]. rewrite E6. cbn [bind]. cbv zeta.
  set (elem := zip Rmult (map (fun d => d * r_rscale q) den) (map fix_frac frac)) in *.
  rewrite HY. apply Z.eqb_neq in I1, I2. rewrite I1, I2. cbn [negb andb].
  assert (IN2 : In (S k) (where_positive 0 elem)).
  { destruct (Forall2_nth_e _ _ _ EL _ _ J) as (e & E & EE).
    destruct (elem_has _ _ _ _ EE) as (rho' & f' & H' & ->).
    assert (rho' * r_rscale q * f' = rho * r_rscale q * f) as EQ.
    { destruct H as (A & raw & B & ->), H' as (A' & raw' & B' & ->). congruence. }
    rewrite EQ in E. clear - E POS. revert E. generalize (S k). clear k.
    induction elem as [|x l IH]; intros [|k] E; cbn [nth_error] in E; try discriminate; cbn [where_positive].
    - injection E as ->. destruct (Rlt_dec 0 (rho * r_rscale q * f)); [now left | contradiction].
    - rewrite where_shift. apply IH in E. apply (in_map S) in E.
      destruct (Rlt_dec 0 x); [now right | exact E]. }
  destruct (where_positive 0 elem) as [|k0 ks] eqn:W; [contradiction|].
  rewrite (gather_none [0] (k0 :: ks) (S k)); auto. cbn [length]. lia.
Qed.

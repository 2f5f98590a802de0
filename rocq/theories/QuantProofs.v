(** Proofs about the derived quantities. *)
From Coq Require Import Ascii String ZArith List Bool Reals Lra Lia.
From Verif Require RatesModel.
From Verif Require Import OpenModel OpenSpec OpenProofs2 QuantModel QuantSpec.
Import ListNotations.
Local Open Scope R_scope.

Lemma bind_val : forall A B (x : res A) (f : A -> res B) b, bind x f = Val b -> exists a, x = Val a /\ f a = Val b.
Proof. intros A B [a| | | |] f b H; try discriminate. now exists a. Qed.

Lemma zip_spec : forall A B C (f : A -> B -> C) a b c, zip f a b = Val c <-> Forall3 (fun x y z => z = f x y) a b c.
Proof.
  intros A B C f. induction a as [|x a IH]; intros [|y b] c; cbn.
  - split; [intros H; injection H as <-; constructor|intros H; now inversion H].
  - split; [discriminate|intros H; inversion H].
  - split; [discriminate|intros H; inversion H].
  - split.
    + intros H. apply bind_val in H. destruct H as (r & Hr & H). injection H as <-. apply IH in Hr. now constructor.
    + intros H. inversion H; subst. match goal with K : Forall3 _ a b _ |- _ => apply IH in K; rewrite K end. reflexivity.
Qed.

Lemma zip_total : forall A B C (f : A -> B -> C) a b, length a = length b -> exists c, zip f a b = Val c.
Proof.
  intros A B C f. induction a as [|x a IH]; intros [|y b] L; cbn in *; try discriminate; [now eexists|].
  injection L as L. destruct (IH b L) as [c E]. rewrite E. now eexists.
Qed.

(** ** Temperature *)
Lemma temp_algebra : forall X ne e mp kb, 0 < mp -> 0 < kb -> X * (3 + 4 * ne) + 1 > 0 ->
  e = (X + (1 - X) / 4 + ne * X) / mp * (3 / 2 * kb * ((5 / 3 - 1) * mp / kb * (4 / (X * (3 + 4 * ne) + 1) * e))).
Proof. intros. field. lra. Qed.

Lemma mp_pos : 0 < 1.67262178e-24. Proof. lra. Qed.
Lemma kb_pos : 0 < 1.38066e-16. Proof. lra. Qed.

Lemma temp_thermal : forall X ne e, 0 <= X -> 0 <= ne -> thermal X ne e (temp_one X ne e).
Proof.
  intros X ne e HX Hn. assert (0 <= X * ne) by now apply Rmult_le_pos.
  exact (temp_algebra X ne e _ _ mp_pos kb_pos ltac:(nra)).
Qed.

Lemma unique_algebra : forall X ne e mp kb T T', 0 < mp -> 0 < kb -> 0 <= X -> 0 <= X * ne ->
  e = (X + (1 - X) / 4 + ne * X) / mp * (3 / 2 * kb * T) -> e = (X + (1 - X) / 4 + ne * X) / mp * (3 / 2 * kb * T') -> T = T'.
Proof.
  intros X ne e mp kb T T' Hm Hk HX Hn A B.
  assert (P : (X + (1 - X) / 4 + ne * X) / mp * (3 / 2 * kb) > 0).
  { apply Rmult_lt_0_compat; [|lra]. apply Rdiv_lt_0_compat; nra. }
  set (c := (X + (1 - X) / 4 + ne * X) / mp) in *.
  apply (Rmult_eq_reg_l (c * (3 / 2 * kb))); [|lra]. lra.
Qed.

Lemma thermal_unique : forall X ne e T T', 0 <= X -> 0 <= ne -> thermal X ne e T -> thermal X ne e T' -> T = T'.
Proof.
  intros X ne e T T' HX Hn A B. assert (0 <= X * ne) by now apply Rmult_le_pos.
  exact (unique_algebra X ne e _ _ T T' mp_pos kb_pos HX ltac:(assumption) A B).
Qed.

Lemma used_unit : forall header given v, unit_used header given v ->
  u_vel (match given with Some u => u | None => get_units header end) = v.
Proof.
  intros h g v [(u & -> & ->)|[(-> & u & (A & B & C) & ->)|(-> & M & ->)]].
  - reflexivity.
  - unfold get_units. rewrite A, B, C. reflexivity.
  - unfold get_units. destruct (h "UnitLength_in_cm"%string), (h "UnitMass_in_g"%string), (h "UnitVelocity_in_cm_per_s"%string); try reflexivity.
    destruct M as [M|[M|M]]; discriminate.
Qed.

Lemma swap3 : forall A B C (P : A -> B -> C -> Prop) a b c, Forall3 P a b c -> Forall3 (fun y x z => P x y z) b a c.
Proof. intros A B C P a b c H. induction H; constructor; assumption. Qed.

Lemma C72_temperature_aux : forall header get X given e ne v T,
  0 <= X -> get "InternalEnergy"%string = Val e -> get "ElectronAbundance"%string = Val ne -> Forall (fun x => 0 <= x) ne ->
  unit_used header given v ->
  (length e = length ne -> exists t, get_temp header get X given = Val t) /\
  (get_temp header get X given = Val T -> Forall3 (fun e ne T => thermal X ne (e * v ^ 2) T) e ne T).
Proof.
  intros header get X given e ne v T HX He Hn Fn U. unfold get_temp. rewrite He, Hn. cbn [bind].
  unfold energy_unit. rewrite (used_unit _ _ _ U). split.
  - intros L. apply zip_total. rewrite map_length. now symmetry.
  - intros H. apply zip_spec in H. apply swap3. clear He Hn U. revert e T H.
    induction Fn as [|n ns Hn0 Fn IH]; intros [|e0 e] T H; cbn in H; inversion H; subst; constructor; auto.
    now apply temp_thermal.
Qed.

Lemma network_temp : forall X ne e T, RatesModel.get_temp ne e (1 - X) = Some T -> T = temp_one X ne (e * 1e5 ^ 2).
Proof.
  intros X ne e T H. unfold RatesModel.get_temp in H. cbv zeta in H.
  match type of H with (if ?c then _ else _) = _ => destruct c; [|discriminate] end. injection H as <-.
  unfold temp_one. cbv zeta. replace (1 - (1 - X)) with X by ring.
  replace (1 + (3 + 4 * ne) * X) with (X * (3 + 4 * ne) + 1) by ring.
  assert (E : 1e5 ^ 2 = 1e10) by lra. rewrite E. f_equal. unfold Rdiv. ring.
Qed.

Lemma C72_network_aux : forall X ne e T, RatesModel.get_temp ne e (1 - X) = Some T ->
  get_temp (fun _ => None) (fun x => if String.eqb x "InternalEnergy" then Val [e]
    else if String.eqb x "ElectronAbundance" then Val [ne] else KeyErr) X None = Val [T].
Proof.
  intros X ne e T H. apply network_temp in H. subst T. unfold get_temp.
  change (String.eqb "InternalEnergy" "InternalEnergy") with true.
  change (String.eqb "ElectronAbundance" "InternalEnergy") with false.
  change (String.eqb "ElectronAbundance" "ElectronAbundance") with true.
  cbn [bind map zip]. reflexivity.
Qed.

Lemma C72_units_refuted_aux : forall header get X ne e v T,
  header "UnitLength_in_cm"%string = None -> header "UnitVelocity_in_cm_per_s"%string = Some v -> 0 < v -> v <> 1e5 ->
  get "InternalEnergy"%string = Val [e] -> get "ElectronAbundance"%string = Val [ne] -> 0 < e -> 0 <= ne -> 0 <= X ->
  get_temp header get X None = Val [T] -> ~ thermal X ne (e * v ^ 2) T.
Proof.
  intros header get X ne e v T Hl Hv Pv Nv He Hn Pe Pn HX H Th. unfold get_temp, get_units in H. rewrite Hl, He, Hn in H.
  cbn [bind map zip] in H. injection H as H.
  assert (Th' : thermal X ne (e * 1e5 ^ 2) T) by (rewrite <- H; now apply temp_thermal).
  unfold thermal in Th, Th'. rewrite <- Th in Th'.
  assert (E : e * (v ^ 2 - 1e5 ^ 2) = 0) by lra. apply Rmult_integral in E. destruct E as [E|E]; [lra|].
  assert (F : (v - 1e5) * (v + 1e5) = 0) by lra. apply Rmult_integral in F. lra.
Qed.

(** ** Velocities *)
Lemma C72_velocity_aux : forall header get a v, 0 < a -> header "Time"%string = Some a ->
  (get "Velocities"%string = Val (map (fun x => x / sqrt a) v) -> hdf_velocity header get = Val v) /\
  (header "UsePeculiarVelocity"%string = Some 0 -> get "Velocity"%string = Val (map (fun x => a * x) v) ->
   big_velocity header get = Val v) /\
  (forall p, p <> 0 -> header "UsePeculiarVelocity"%string = Some p -> get "Velocity"%string = Val v ->
   big_velocity header get = Val v).
Proof.
  intros header get a v Pa Ha. pose proof (sqrt_lt_R0 a Pa) as Ps. split; [|split].
  - intros H. unfold hdf_velocity, look. rewrite H, Ha. cbn [bind]. rewrite map_map. f_equal.
    transitivity (map (fun x => x) v); [|apply map_id]. apply map_ext. intros x. field. lra.
  - intros Hp H. unfold big_velocity, look. rewrite H, Hp. cbn [bind]. destruct (Req_EM_T 0 0) as [_|N]; [|contradiction].
    rewrite Ha. cbn [bind]. rewrite map_map. f_equal.
    transitivity (map (fun x => x) v); [|apply map_id]. apply map_ext. intros x. field. lra.
  - intros p Np Hp H. unfold big_velocity, look. rewrite H, Hp. cbn [bind]. destruct (Req_EM_T p 0); [contradiction|reflexivity].
Qed.

(** ** Smoothing length and kernel *)
Lemma root3_spec : forall v, 0 <= v -> 0 <= root3 v /\ root3 v * root3 v * root3 v = v.
Proof.
  intros v Hv. unfold root3. destruct (Rlt_dec 0 v) as [P|N].
  - split; [unfold Rpower; left; apply exp_pos|]. rewrite <- !Rpower_plus. replace (1 / 3 + 1 / 3 + 1 / 3) with 1 by field.
    now apply Rpower_1.
  - split; [lra|]. lra.
Qed.

Definition in_every (fs : list hfile) (x : string) : Prop := forall f, In f fs -> exists g d, gas f = Some g /\ g x = Some d.
Definition in_none (fs : list hfile) (x : string) : Prop := forall f, In f fs -> exists g, gas f = Some g /\ g x = None.

Lemma every_or_none : forall fs x, uniform fs -> in_every fs x \/ in_none fs x.
Proof.
  intros [|f fs] x U; [left; intros f []|].
  destruct (U f f (or_introl eq_refl) (or_introl eq_refl)) as (b & _ & Hb & _ & _).
  destruct (b x) as [d|] eqn:E.
  - left. intros g Hg. destruct (U f g (or_introl eq_refl) Hg) as (bf & bg & Hf & Gg & S0).
    rewrite Hb in Hf. injection Hf as <-. exists bg. destruct (bg x) as [e|] eqn:Q; [now exists e|].
    apply S0 in Q. congruence.
  - right. intros g Hg. destruct (U f g (or_introl eq_refl) Hg) as (bf & bg & Hf & Gg & S0).
    rewrite Hb in Hf. injection Hf as <-. exists bg. split; [exact Gg|]. now apply S0.
Qed.

Lemma data_every : forall fs s x, hdf_name x = x -> valid fs s -> in_every fs x ->
  exists d, hdf_data fs s x = Val d /\ segment_block fs s x d.
Proof.
  intros fs s x Nx V I. unfold hdf_data, segment_block. destruct (Z.ltb_spec s 0) as [L|L].
  - assert (G : exists d, gas_all fs x = Val d /\ whole_block fs x d).
    { clear V. unfold gas_all, whole_block. induction fs as [|f fs IH]; cbn [fold_right].
      - exists []. split; [reflexivity|]. exists []. split; [constructor|reflexivity].
      - destruct (I f (or_introl eq_refl)) as (g & d & Gf & Gx).
        destruct IH as (ds & Hd & es & F & ->); [intros h Hh; apply I; now right|].
        exists (d ++ concat es)%list. unfold gas_block at 1. rewrite Gf. unfold look. rewrite Nx, Gx. cbn [bind]. rewrite Hd. cbn [bind].
        split; [reflexivity|]. exists (d :: es). split; [constructor; [now exists g|exact F]|reflexivity]. }
    destruct G as (d & A & B). exists d. split; [exact A|]. left. now split.
  - unfold valid in V. destruct (nth_error fs (Z.to_nat s)) as [f|] eqn:E.
    + destruct (I f (nth_error_In _ _ E)) as (g & d & Gf & Gx). exists d. unfold gas_block. rewrite Gf. unfold look. rewrite Nx, Gx.
      split; [reflexivity|]. right. split; [exact L|]. now exists f, g.
    + apply nth_error_None in E. lia.
Qed.

Lemma data_none : forall fs s x, hdf_name x = x -> fs <> [] -> valid fs s -> in_none fs x ->
  hdf_data fs s x = KeyErr /\ forall d, ~ segment_block fs s x d.
Proof.
  intros fs s x Nx Ne V I. unfold hdf_data, segment_block. destruct (Z.ltb_spec s 0) as [L|L].
  - destruct fs as [|f fs]; [contradiction|]. destruct (I f (or_introl eq_refl)) as (g & Gf & Gx).
    split.
    + unfold gas_all. cbn [fold_right]. unfold gas_block at 1. rewrite Gf. unfold look. rewrite Nx, Gx. reflexivity.
    + intros d [[_ (ds & F & _)]|[K _]]; [|lia]. inversion F as [|f' e fs' es (g' & Hg' & Hx') _]; subst.
      rewrite Gf in Hg'. injection Hg' as <-. congruence.
  - unfold valid in V. destruct (nth_error fs (Z.to_nat s)) as [f|] eqn:E.
    + destruct (I f (nth_error_In _ _ E)) as (g & Gf & Gx). unfold gas_block. rewrite Gf. unfold look. rewrite Nx, Gx.
      split; [reflexivity|]. intros d [[K _]|[_ (f' & g' & Hf' & Hg' & Hx')]]; [lia|].
      injection Hf' as <-. rewrite Gf in Hg'. injection Hg' as <-. congruence.
    + apply nth_error_None in E. lia.
Qed.

Lemma open_valid : forall fs reads, fs <> [] -> Forall (valid fs) reads -> exists f, open_after fs reads = Some f /\ In f fs.
Proof.
  intros fs reads Ne F. unfold open_after.
  assert (B : (0 <= fold_left (fun h s => if (s <? 0)%Z then h else s) reads 0 < Z.of_nat (length fs))%Z).
  { assert (K : forall h, (0 <= h < Z.of_nat (length fs))%Z ->
      (0 <= fold_left (fun h s => if (s <? 0)%Z then h else s) reads h < Z.of_nat (length fs))%Z).
    { induction F as [|s l Vs F IH]; intros h Hh; cbn [fold_left]; [exact Hh|]. apply IH.
      unfold valid in Vs. destruct (Z.ltb_spec s 0); lia. }
    apply K. destruct fs; [contradiction|]. cbn [length]. lia. }
  destruct (nth_error fs _) as [f|] eqn:E; [exists f; split; [reflexivity|eapply nth_error_In; eauto]|].
  apply nth_error_None in E. lia.
Qed.

Lemma kernel_every : forall f fs, In f fs ->
  (in_every fs "Volume" -> hdf_kernel f = Val 0%Z) /\
  (in_none fs "Volume" -> in_every fs "SmoothingLength" -> hdf_kernel f = Val 1%Z) /\
  (in_none fs "Volume" -> in_none fs "SmoothingLength" -> hdf_kernel f = Val 0%Z).
Proof.
  intros f fs I. unfold hdf_kernel. split; [|split].
  - intros V. destruct (V f I) as (g & d & -> & ->). reflexivity.
  - intros V S0. destruct (V f I) as (g & Hg & Hv). destruct (S0 f I) as (g' & d & Hg' & Hs). rewrite Hg in *.
    injection Hg' as <-. now rewrite Hv, Hs.
  - intros V S0. destruct (V f I) as (g & Hg & Hv). destruct (S0 f I) as (g' & Hg' & Hs). rewrite Hg in *.
    injection Hg' as <-. now rewrite Hv, Hs.
Qed.

Lemma map_Forall2 : forall A B (f : A -> B) (P : A -> B -> Prop) l, (forall x, P x (f x)) -> Forall2 P l (map f l).
Proof. intros A B f P l H. induction l; cbn; constructor; auto. Qed.

Lemma C72_smooth_aux : forall fs, uniform fs -> fs <> [] -> exists k, (k = 0 \/ k = 1)%Z /\
  forall reads s, Forall (valid fs) reads -> valid fs s ->
  (exists f, open_after fs reads = Some f /\ hdf_kernel f = Val k) /\
  (k = 1%Z -> (forall v, ~ segment_block fs s "Volume" v) /\
     exists h r, segment_block fs s "SmoothingLength" h /\ hdf_smooth (hdf_data fs s) = Val r /\
       Forall2 (fun h r => r = h / 2) h r) /\
  (k = 0%Z -> forall r, hdf_smooth (hdf_data fs s) = Val r ->
     exists v, cell_volumes fs s v /\ Forall2 (fun v r => 0 <= v -> 0 <= r /\ r * r * r = v) v r) /\
  (forall v, segment_block fs s "Volume" v -> k = 0%Z /\ exists r, hdf_smooth (hdf_data fs s) = Val r).
Proof.
  intros fs U Ne.
  destruct (every_or_none fs "Volume" U) as [V|V].
  - exists 0%Z. split; [now left|]. intros reads s Fr Vs. split; [|split; [|split]].
    + destruct (open_valid fs reads Ne Fr) as (f & E & I). exists f. split; [exact E|]. exact (proj1 (kernel_every f fs I) V).
    + discriminate.
    + intros _ r H. destruct (data_every fs s "Volume" eq_refl Vs V) as (d & E & B). unfold hdf_smooth in H. rewrite E in H.
      injection H as <-. exists d. split; [now left|]. apply map_Forall2. exact root3_spec.
    + intros v _. split; [reflexivity|]. destruct (data_every fs s "Volume" eq_refl Vs V) as (d & E & B). unfold hdf_smooth. rewrite E.
      eexists. reflexivity.
  - destruct (every_or_none fs "SmoothingLength" U) as [S0|S0].
    + exists 1%Z. split; [now right|]. intros reads s Fr Vs. destruct (data_none fs s "Volume" eq_refl Ne Vs V) as [E B].
      split; [|split; [|split]].
      * destruct (open_valid fs reads Ne Fr) as (f & E' & I). exists f. split; [exact E'|]. exact (proj1 (proj2 (kernel_every f fs I)) V S0).
      * intros _. split; [exact B|]. destruct (data_every fs s "SmoothingLength" eq_refl Vs S0) as (d & E' & B').
        exists d. unfold hdf_smooth. rewrite E, E'. eexists. split; [exact B'|]. split; [reflexivity|]. apply map_Forall2. reflexivity.
      * discriminate.
      * intros v Hv. exfalso. eapply B; eauto.
    + exists 0%Z. split; [now left|]. intros reads s Fr Vs. destruct (data_none fs s "Volume" eq_refl Ne Vs V) as [E B].
      destruct (data_none fs s "SmoothingLength" eq_refl Ne Vs S0) as [E' B'].
      split; [|split; [|split]].
      * destruct (open_valid fs reads Ne Fr) as (f & Eo & I). exists f. split; [exact Eo|]. exact (proj2 (proj2 (kernel_every f fs I)) V S0).
      * discriminate.
      * intros _ r H. unfold hdf_smooth in H. rewrite E, E' in H.
        destruct (every_or_none fs "Density" U) as [D|D]; [|rewrite (proj1 (data_none fs s "Density" eq_refl Ne Vs D)) in H; discriminate].
        destruct (data_every fs s "Density" eq_refl Vs D) as (d & Ed & Bd). rewrite Ed in H. cbn [bind] in H.
        destruct (every_or_none fs "Masses" U) as [M|M]; [|rewrite (proj1 (data_none fs s "Masses" eq_refl Ne Vs M)) in H; discriminate].
        destruct (data_every fs s "Masses" eq_refl Vs M) as (m & Em & Bm). rewrite Em in H. cbn [bind] in H.
        apply bind_val in H. destruct H as (v & Hz & H). injection H as <-. apply zip_spec in Hz.
        exists v. split; [right; split; [exact B|]; exists m, d; auto|]. apply map_Forall2. exact root3_spec.
      * intros v Hv. exfalso. eapply B; eauto.
Qed.

Lemma C72_kernel_refuted_aux : forall f g b h, gas f = None -> gas g = Some b -> b "Volume"%string = None ->
  b "SmoothingLength"%string = Some h ->
  (exists o, open_after [f; g] [] = Some o /\ hdf_kernel o = KeyErr) /\
  (exists o, open_after [f; g] [1%Z] = Some o /\ hdf_kernel o = Val 1%Z).
Proof.
  intros f g b h Hf Hg Hv Hs. split.
  - exists f. split; [reflexivity|]. unfold hdf_kernel. now rewrite Hf.
  - exists g. split; [reflexivity|]. unfold hdf_kernel. now rewrite Hg, Hv, Hs.
Qed.

(** ** BigFile kernel, number of particles, baryon density *)
Lemma C72_big_kernel_aux : forall attr,
  (big_kernel attr = Val 1%Z <-> attr = None \/ attr = Some 1%Z) /\
  (big_kernel attr = Val 3%Z <-> attr = Some 2%Z \/ attr = Some 3%Z) /\
  (big_kernel attr = AssertErr <-> exists k, attr = Some k /\ ~ (1 <= k <= 3)%Z).
Proof.
  intros attr. unfold big_kernel. destruct attr as [k|].
  - destruct (Z.eq_dec k 2) as [->|N2]; [repeat split; try discriminate; try tauto;
      try (intros [?|?]; discriminate); intros (k & E & B); injection E as <-; lia|].
    assert (E : match Some k with
       | Some 2%Z => Val 3%Z
       | _ => if ((k =? 1) || (k =? 3))%Z then Val k else AssertErr end = if ((k =? 1) || (k =? 3))%Z then Val k else AssertErr).
    { destruct k as [|[[?|?|]|[?|?|]|]|]; try reflexivity. contradiction. }
    cbv zeta. rewrite E. destruct (Z.eqb_spec k 1) as [->|N1]; [|destruct (Z.eqb_spec k 3) as [->|N3]]; cbn [orb].
    + repeat split; try discriminate; try tauto; try (intros [?|?]; discriminate). intros (k & Ek & B). injection Ek as <-. lia.
    + repeat split; try discriminate; try tauto; try (intros [?|?]; discriminate). intros (k & Ek & B). injection Ek as <-. lia.
    + repeat split; try discriminate.
      * intros [?|H]; [discriminate|]. injection H as ->. contradiction.
      * intros [H|H]; injection H as ->; contradiction.
      * intros _. exists k. split; [reflexivity|]. lia.
  - cbn. repeat split; try discriminate; try tauto; try (intros [?|?]; discriminate). intros (k & E & _). discriminate.
Qed.

Lemma C72_npart_aux : forall total, (0 <= total < 2 ^ 64)%Z -> npart_total (total mod 2 ^ 32) (total / 2 ^ 32) = total.
Proof. intros total H. unfold npart_total. pose proof (Z.div_mod total (2 ^ 32) ltac:(lia)). lia. Qed.

Lemma omega_value : forall f bar dm, masses f bar dm -> omega_baryon f = Val (bar / (bar + dm) * omega0 f).
Proof.
  intros f bar dm (g & m & Hg & Hm & -> & ->). unfold omega_baryon. rewrite Hg. unfold look. rewrite Hm. reflexivity.
Qed.

Lemma C72_omega_aux : forall fs om ob, fs <> [] ->
  (forall f, In f fs -> omega0 f = om /\ exists bar dm, masses f bar dm /\ 0 < bar + dm /\ bar * (om - ob) = dm * ob) ->
  forall reads, Forall (valid fs) reads -> exists f, open_after fs reads = Some f /\ omega_baryon f = Val ob.
Proof.
  intros fs om ob Ne H reads Fr. destruct (open_valid fs reads Ne Fr) as (f & E & I). exists f. split; [exact E|].
  destruct (H f I) as (Ho & bar & dm & M & P & Q). rewrite (omega_value _ _ _ M), Ho. f_equal.
  apply (Rmult_eq_reg_r (bar + dm)); [|lra]. replace (bar / (bar + dm) * om * (bar + dm)) with (bar * om) by (field; lra). lra.
Qed.

Lemma C72_omega_refuted_aux :
  (forall f bar dm, masses f bar dm -> dm_mass f = 0 -> 0 < bar -> omega_baryon f = Val (omega0 f)) /\
  (forall f g bar dm bar' dm', masses f bar dm -> masses g bar' dm' -> omega0 f = omega0 g -> 0 < omega0 f ->
     0 < bar + dm -> 0 < bar' + dm' -> bar * dm' <> bar' * dm ->
     exists o o', option_map omega_baryon (open_after [f; g] []) = Some (Val o) /\
       option_map omega_baryon (open_after [f; g] [1%Z]) = Some (Val o') /\ o <> o').
Proof.
  split.
  - intros f bar dm M Z P. rewrite (omega_value _ _ _ M). f_equal.
    assert (E : dm = 0) by (destruct M as (g & m & _ & _ & _ & ->); rewrite Z; ring). rewrite E. field. lra.
  - intros f g bar dm bar' dm' M M' Ho P Pf Pg N. exists (bar / (bar + dm) * omega0 f), (bar' / (bar' + dm') * omega0 g).
    split; [cbn; f_equal; now apply omega_value|].
    split; [change (Some (omega_baryon g) = Some (Val (bar' / (bar' + dm') * omega0 g))); f_equal; now apply omega_value|].
    rewrite <- Ho. intros E. apply N. apply (Rmult_eq_reg_r (omega0 f)) in E; [|lra].
    assert (K : bar * (bar' + dm') = bar' * (bar + dm)); [|lra].
    apply (f_equal (fun t => t * ((bar + dm) * (bar' + dm')))) in E.
    replace (bar / (bar + dm) * ((bar + dm) * (bar' + dm'))) with (bar * (bar' + dm')) in E by (field; lra).
    replace (bar' / (bar' + dm') * ((bar + dm) * (bar' + dm'))) with (bar' * (bar + dm)) in E by (field; lra). exact E.
Qed.

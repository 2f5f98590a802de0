(** Further proofs about the save file: velocities of a single element, wavelengths that are not doubles, saving after a replacement. *)
From Coq Require Import ZArith String List Reals Lra Lia Arith Bool.
From Flocq Require Import Core.
From Verif Require Import StoreModel StoreSpec StoreProofs StoreProofs2 StoreProofs3.
Import ListNotations.
Local Open Scope Z_scope.

(** ** float_of is rounding to the nearest double *)
Definition double (x : R) : R := round radix2 (FLT_exp (-1074) 53) ZnearestE x.

Lemma float_opp : forall n, float_of (- n) = - float_of n.
Proof.
  intros n. unfold float_of. rewrite Z.abs_opp. destruct (Z.leb_spec (Z.abs n) (2 ^ 53)); [reflexivity|].
  rewrite Z.sgn_opp. ring.
Qed.

Lemma double_small : forall n, 0 <= n <= 2 ^ 53 -> double (IZR n) = IZR n.
Proof.
  intros n B. unfold double. apply round_generic; [apply valid_rnd_N|]. destruct (Z.eq_dec n (2 ^ 53)) as [->|NE].
  - change (IZR (2 ^ 53)) with (bpow radix2 53). apply generic_format_bpow. unfold FLT_exp. lia.
  - apply generic_format_FLT. exists (Float radix2 n 0); [|change (Z.abs n < 2 ^ 53); lia|cbn; lia]. unfold F2R. cbn. ring.
Qed.

Lemma double_big : forall m, 2 ^ 53 < m -> IZR (float_of m) = double (IZR m).
Proof.
  intros m B. assert (LB : 2 ^ Z.log2 m <= m < 2 ^ Z.succ (Z.log2 m)) by (apply Z.log2_spec; lia).
  assert (L53 : 53 <= Z.log2 m) by (change 53 with (Z.log2 (2 ^ 53)); apply Z.log2_le_mono; lia).
  unfold float_of. rewrite (Z.abs_eq m) by lia. destruct (Z.leb_spec m (2 ^ 53)) as [C|_]; [lia|].
  rewrite (Z.sgn_pos m) by lia. rewrite Z.mul_1_l.
  set (e := Z.log2 m - 52). set (q := m / 2 ^ e). set (r := m mod 2 ^ e).
  assert (E1 : 1 <= e) by (unfold e; lia).
  assert (P2 : 0 < 2 ^ e) by (apply Z.pow_pos_nonneg; lia).
  assert (DM : m = 2 ^ e * q + r) by (apply Z.div_mod; lia).
  assert (RB : 0 <= r < 2 ^ e) by (apply Z.mod_pos_bound; lia).
  assert (HP : 2 ^ e = 2 * 2 ^ (e - 1)) by (rewrite <- Z.pow_succ_r by lia; f_equal; lia).
  assert (BP : bpow radix2 e = IZR (2 ^ e)) by (rewrite <- IZR_Zpower by lia; reflexivity).
  assert (BR : (0 < IZR (2 ^ e))%R) by (apply IZR_lt; lia).
  assert (MG : mag radix2 (IZR m) = (Z.log2 m + 1) :> Z).
  { apply mag_unique_pos. replace (Z.log2 m + 1 - 1) with (Z.log2 m) by lia. rewrite <- !IZR_Zpower by lia. split; [apply IZR_le; exact (proj1 LB)|apply IZR_lt; exact (proj2 LB)]. }
  assert (CE : cexp radix2 (FLT_exp (-1074) 53) (IZR m) = e).
  { unfold cexp, FLT_exp. rewrite MG. unfold e. lia. }
  unfold double, round, scaled_mantissa. rewrite CE. unfold F2R. cbn [Fnum Fexp]. rewrite BP, mult_IZR. f_equal. f_equal.
  rewrite bpow_opp, BP. set (x := (IZR m * / IZR (2 ^ e))%R).
  assert (X : x = (IZR q + IZR r / IZR (2 ^ e))%R).
  { unfold x. rewrite DM at 1. rewrite plus_IZR, mult_IZR. field. lra. }
  assert (R0 : (0 <= IZR r / IZR (2 ^ e) < 1)%R).
  { split; [apply Rmult_le_pos; [apply IZR_le; lia|left; apply Rinv_0_lt_compat; exact BR]|].
    apply (Rmult_lt_reg_r (IZR (2 ^ e))); [exact BR|]. unfold Rdiv. rewrite Rmult_assoc, Rinv_l, Rmult_1_r, Rmult_1_l by lra. apply IZR_lt; lia. }
  assert (FL : Zfloor x = q) by (apply Zfloor_imp; rewrite X, plus_IZR; lra).
  assert (HH : IZR (2 ^ e) = (2 * IZR (2 ^ (e - 1)))%R) by (rewrite HP at 1; rewrite mult_IZR; reflexivity).
  assert (H0 : (0 < IZR (2 ^ (e - 1)))%R) by lra.
  assert (CL : r <> 0 -> Zceil x = q + 1).
  { intros NZ. rewrite <- FL. apply Zceil_floor_neq. rewrite FL, X. intros C. assert (Z0 : (IZR r / IZR (2 ^ e) = 0)%R) by lra.
    apply NZ. apply eq_IZR. apply (Rmult_eq_reg_r (/ IZR (2 ^ e))); [|apply Rinv_neq_0_compat; lra]. rewrite Rmult_0_l. exact Z0. }
  assert (XQ : (x - IZR q = IZR r / IZR (2 ^ e))%R) by lra.
  assert (CMP : forall t, ((t / IZR (2 ^ e) - / 2) * IZR (2 ^ e) = t - IZR (2 ^ (e - 1)))%R) by (intros t; rewrite HH; field; lra).
  unfold Znearest. rewrite FL, XQ.
  destruct (Z.ltb_spec r (2 ^ (e - 1))) as [C1|C1].
  - rewrite Rcompare_Lt; [lia|]. apply IZR_lt in C1. specialize (CMP (IZR r)). nra.
  - destruct (Z.ltb_spec (2 ^ (e - 1)) r) as [C2|C2].
    + rewrite Rcompare_Gt; [rewrite CL; lia|]. apply IZR_lt in C2. specialize (CMP (IZR r)). nra.
    + assert (r = 2 ^ (e - 1)) by lia. rewrite Rcompare_Eq; [|rewrite H, HH; field; lra].
      rewrite <- Z.negb_even. destruct (Z.even q); cbn [negb]; [lia|]. rewrite CL; [reflexivity|]. intros Z0. rewrite Z0 in H. apply (f_equal IZR) in H. lra.
Qed.

Lemma float_double : forall n, IZR (float_of n) = double (IZR n).
Proof.
  assert (POS : forall n, 0 <= n -> IZR (float_of n) = double (IZR n)).
  { intros n P. destruct (Z.le_gt_cases n (2 ^ 53)) as [L|L]; [|apply double_big; lia].
    unfold float_of. rewrite Z.abs_eq by lia. destruct (Z.leb_spec n (2 ^ 53)); [|lia]. symmetry. apply double_small. lia. }
  intros n. destruct (Z.le_gt_cases 0 n) as [P|P]; [apply POS; exact P|].
  replace n with (- (- n)) by lia. rewrite float_opp, !opp_IZR, POS by lia. unfold double. rewrite <- opp_IZR, <- round_NE_opp. rewrite opp_IZR. reflexivity.
Qed.

Section More.
Context {A H : Type} (size : A -> nat) (hole : A).
Local Notation obj := (obj A H).
Local Notation file := (file A H).

Lemma key_of_any : forall k, exists k', key_of (path k) = Some k' /\
  match k, k' with KTau e i l, KTau e' i' l' => e' = e /\ i' = i /\ IZR l' = double (IZR l) | _, _ => k' = k end.
Proof.
  intros [e i l|p e i|d e i]; cbn [path key_of]; rewrite ?int_str; eexists; (split; [reflexivity|]); try reflexivity.
  split; [reflexivity|]. split; [reflexivity|]. apply float_double.
Qed.

Lemma load_names_any : forall ps c, (forall p, In p ps -> exists k, p = path k) ->
  exists c', load_names hole ps c = Some c' /\ (forall k, get key_dec c k = Some hole -> get key_dec c' k = Some hole) /\
    forall k k', In (path k) ps -> key_of (path k) = Some k' -> get key_dec c' k' = Some hole.
Proof.
  induction ps as [|p ps IH]; intros c Hp.
  - exists c. split; [reflexivity|]. split; [auto|]. intros k k' [].
  - destruct (Hp p (or_introl eq_refl)) as [k0 ->]. destruct (key_of_any k0) as [k1 [K1 _]]. cbn [load_names]. rewrite K1.
    destruct (IH (set key_dec c k1 hole)) as [c' [L [KP IN]]]; [intros p I; apply Hp; right; exact I|].
    exists c'. split; [exact L|]. split.
    + intros k G. apply KP. rewrite get_set. destruct (key_dec k k1); [reflexivity|exact G].
    + intros k k' [E|I] K; [|apply (IN k k' I K)]. rewrite <- E, K1 in K. injection K as <-. apply KP. rewrite get_set. destruct (key_dec k1 k1); [reflexivity|contradiction].
Qed.

Lemma C18_wavelength_aux : forall (d : disk A H) (o : obj) F, one_each o -> F = contents o -> main d = Good F ->
  exists o', load hole (main d) = Ok o' /\ hdr o' = hdr o /\
    forall k a, cached o k a ->
      match k with
      | KTau e i l => exists l', IZR l' = double (IZR l) /\ cached o' (KTau e i l') hole
      | _ => cached o' k hole
      end.
Proof.
  intros d o F N -> M. rewrite M. unfold load. cbn [contents present andb].
  set (ps := filter (fun p => true) (map fst (f_data (contents o)))).
  assert (PE : ps = map fst (f_data (contents o))) by (unfold ps; induction (map fst (f_data (contents o))) as [|x l IH]; [reflexivity|]; cbn [filter]; rewrite IH; reflexivity).
  assert (Hps : forall p, In p ps -> exists k, p = path k).
  { intros p I. rewrite PE in I. apply contents_names in I. destruct I as [[]|(k & I & ->)]. exists k. reflexivity. }
  destruct (load_names_any ps [] Hps) as [c [L [_ IN]]].
  change (filter (fun _ : group * list string => true) (map fst (fold_left (fun d ka => set path_dec d (path (fst ka)) (snd ka)) (cache o) []))) with ps.
  rewrite L. eexists. split; [reflexivity|]. split; [reflexivity|]. intros k a C.
  assert (I : In (path k) ps).
  { rewrite PE. apply (get_cached o k a N) in C. apply (proj2 (contents_stored o k a N)) in C. destruct C as [_ C]. apply (in_map fst) in C. exact C. }
  destruct (key_of_any k) as [k' [K Q]]. specialize (IN k k' I K). apply (get_In key_dec) in IN.
  destruct k as [e i l|p e i|dd e i]; [|subst k'; exact IN..]. destruct k' as [e' i' l'| |]; try discriminate. destruct Q as [-> [-> Q]]. exists l'. split; [exact Q|exact IN].
Qed.

(** Velocities of a single element do not prevent saving. *)
Lemma C18_velocity_aux : forall (d : disk A H) (o : obj), one_each o -> main d = Absent ->
  (forall k a, cached o k a -> (size a <= 1)%nat -> neglected k \/ exists e i, k = KDerived Velocity e i) ->
  exists d' F, save size d o = Ok (o, d') /\ main d' = Good F /\ f_hdr F = hdr o /\ forall k a, stored F k a <-> cached o k a.
Proof.
  intros d o N M S1.
  assert (Ld : forall ks, (forall k', In k' ks -> get key_dec (cache o) k' <> None) ->
    load_keys size Absent ks o = (o, None) \/ (load_keys size Absent ks o = (o, Some IOError) /\ exists k a, In k ks /\ cached o k a /\ (size a <= 1)%nat)).
  { induction ks as [|k0 ks IH]; intros Hk; [left; reflexivity|]. cbn [load_keys]. unfold really_load.
    destruct (get key_dec (cache o) k0) as [a0|] eqn:G; [|exfalso; apply (Hk k0 (or_introl eq_refl)); assumption].
    destruct (Nat.ltb_spec 1 (size a0)).
    - destruct IH as [E|[E [k [a [I C]]]]]; [intros; apply Hk; right; assumption|left; exact E|right]. split; [exact E|]. exists k, a. split; [right; exact I|exact C].
    - right. split; [reflexivity|]. exists k0, a0. split; [left; reflexivity|]. split; [apply (get_In key_dec); exact G|lia]. }
  assert (La : forall g, load_all size Absent g o = (o, None) \/ (load_all size Absent g o = (o, Some IOError) /\ exists k a, in_group g k = true /\ cached o k a /\ (size a <= 1)%nat)).
  { intros g. unfold load_all. destruct (Ld (filter (in_group g) (map fst (cache o)))) as [E|[E [k [a [I C]]]]]; [|left; exact E|right].
    - intros k' I'. apply filter_In in I'. intros C'. apply get_None in C'. tauto.
    - split; [exact E|]. exists k, a. split; [|exact C]. apply filter_In in I. tauto. }
  assert (OK : load_before_save size (main d) o = Ok o).
  { rewrite M. unfold load_before_save.
    destruct (La (GPlain TauObs)) as [E|[_ [k [a [G [C S2]]]]]]; [rewrite E|exfalso; destruct (S1 k a C S2) as [Q|[e [i ->]]]; [destruct k as [|[]|[]]; cbn in *; tauto || discriminate|discriminate]].
    destruct (La GTau) as [E2|[_ [k [a [G [C S2]]]]]]; [rewrite E2|exfalso; destruct (S1 k a C S2) as [Q|[e [i ->]]]; [destruct k as [|[]|[]]; cbn in *; tauto || discriminate|discriminate]].
    destruct (La (GPlain ColDen)) as [E3|[_ [k [a [G [C S2]]]]]]; [rewrite E3|exfalso; destruct (S1 k a C S2) as [Q|[e [i ->]]]; [destruct k as [|[]|[]]; cbn in *; tauto || discriminate|discriminate]].
    destruct (La (GDerived Velocity)) as [E4|[E4 _]]; rewrite E4; reflexivity. }
  eexists. exists (contents o). split; [exact (save_done size d o o OK)|]. split; [reflexivity|]. split; [reflexivity|].
  intros k a. rewrite contents_stored, <- get_cached by exact N. reflexivity.
Qed.
End More.

(** After a replacement: what is saved and loaded. *)
Lemma C23_saved_aux : forall (A H : Type) (size : A -> nat) (hole : A) fresh weighted,
  large size fresh weighted -> (size hole <= 1)%nat ->
  forall (d : disk A H) (o : obj A H) h colden, one_each o -> (forall k a, cached o k a -> (1 < size a)%nat /\ in_range k) -> (1 < size colden)%nat ->
  exists o1 d' o', save size d (replaced h colden o) = Ok (o1, d') /\ load hole (main d') = Ok o' /\ hdr o' = h /\
    (exists o2, run size fresh weighted [Get false (KPlain ColDen "H" 1)] d' o' = Ok ([colden], d', o2)) /\
    (forall k a, cached o k a -> k <> KPlain ColDen "H" 1 -> exists o2, run size fresh weighted [Get false k] d' o' = Ok ([a], d', o2)).
Proof.
  intros A H size hole fresh weighted LG HO d o h colden N S1 SC. set (kh := KPlain ColDen "H" 1).
  assert (G : forall k, get key_dec (cache (replaced h colden o)) k = if key_dec k kh then Some colden else get key_dec (cache o) k) by (intros; apply get_set).
  assert (N' : one_each (replaced h colden o)) by (apply set_NoDup; exact N).
  assert (CC : forall k a, cached (replaced h colden o) k a <-> (k = kh /\ a = colden) \/ (k <> kh /\ cached o k a)).
  { intros k a. rewrite (get_cached _ k a N'), G, (get_cached o k a N). destruct (key_dec k kh); split; intros Q.
    - left. split; [assumption|]. congruence.
    - destruct Q as [[_ ->]|[Q _]]; [reflexivity|contradiction].
    - right. split; assumption.
    - destruct Q as [[Q _]|[_ Q]]; [contradiction|exact Q]. }
  destruct (C18_roundtrip_aux size hole fresh weighted LG HO d (replaced h colden o) N') as [o1 [d' [o' [SV [LD [HD RN]]]]]].
  { intros k a C. apply CC in C. destruct C as [[-> ->]|[_ C]]; [split; [exact SC|exact Logic.I]|apply S1; exact C]. }
  exists o1, d', o'. split; [exact SV|]. split; [exact LD|]. split; [exact HD|].
  assert (ONE : forall k a, cached (replaced h colden o) k a -> exists o2, run size fresh weighted [Get false k] d' o' = Ok ([a], d', o2)).
  { intros k a C. destruct (RN [k]) as [vs [o2 [R F2]]]. inversion F2 as [|? v ? ? AN F3]; subst. inversion F3; subst. exists o2. cbn [map] in R. rewrite R.
    assert (v = a); [|subst; reflexivity]. apply (get_cached _ k a N') in C.
    inversion AN; subst; try (exfalso; eapply H0; apply (get_cached _ _ _ N'); exact C).
    match goal with Hc : cached _ k v |- _ => apply (get_cached _ k v N') in Hc; congruence end. }
  split; [apply ONE, CC; left; split; reflexivity|]. intros k a C NK. apply ONE, CC. right. split; assumption.
Qed.

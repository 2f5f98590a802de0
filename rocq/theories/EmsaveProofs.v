(** Proofs about saving emission spectra by one process. *)
From Coq Require Import ZArith List String Bool Lia Arith.
From Verif Require Import StoreModel StoreSpec StoreProofs StoreProofs2 EmsaveModel EmsaveSpec.
Import ListNotations.
Local Open Scope Z_scope.

Section Proofs.
Context {A H : Type} (size : A -> nat) (hole : A).
Variable fresh : key -> A.
Variable weighted : key -> A -> A.
Hypothesis Hlarge : large size fresh weighted.
Hypothesis Hhole : (size hole <= 1)%nat.

Local Notation obj := (obj A H).
Local Notation file := (file A H).
Local Notation fstate := (fstate A H).
Local Notation gett o k := (get key_dec (cache o) k).
Local Notation Inv := (Inv size fresh weighted).
Local Notation expect := (expect fresh weighted).
Local Notation run := (run size fresh weighted).

Definition sub (f : fstate) (k : key) (x : option A) : option A :=
  match k, x with
  | KPlain ColDen e i, Some a =>
      if Nat.ltb 1 (size a) then Some a else match read f (KDerived Velocity e i) with Ok v => Some v | Err _ => Some a end
  | _, _ => x
  end.

Lemma sub_other : forall f k x, (forall e i, k <> KPlain ColDen e i) -> sub f k x = x.
Proof. intros f [e i l|[] e i|d e i] x N; try reflexivity. exfalso. apply (N e i). reflexivity. Qed.

Lemma load_columns_ok : forall f ks (o : obj), NoDup ks ->
  (forall e i, In (KPlain ColDen e i) ks -> exists a, gett o (KPlain ColDen e i) = Some a /\
     ((size a <= 1)%nat -> exists v, read f (KDerived Velocity e i) = Ok v)) ->
  exists o', load_columns size f ks o = (o', None) /\ hdr o' = hdr o /\ map fst (cache o') = map fst (cache o) /\
    (forall k, In k ks -> gett o' k = sub f k (gett o k)) /\ (forall k, ~ In k ks -> gett o' k = gett o k).
Proof.
  intros f. induction ks as [|k ks IH]; intros o N Hk.
  - exists o. repeat split; try reflexivity; intros ? [].
  - inversion_clear N as [|? ? Nk N']. 
    assert (Other : (forall e i, k <> KPlain ColDen e i) -> load_columns size f (k :: ks) o = load_columns size f ks o).
    { intros D. destruct k as [e i l|[] e i|d e i]; try reflexivity. exfalso. apply (D e i). reflexivity. }
    assert (Skip : load_columns size f (k :: ks) o = load_columns size f ks o -> gett o k = sub f k (gett o k) -> 
      exists o', load_columns size f (k :: ks) o = (o', None) /\ hdr o' = hdr o /\ map fst (cache o') = map fst (cache o) /\
        (forall k0, In k0 (k :: ks) -> gett o' k0 = sub f k0 (gett o k0)) /\ (forall k0, ~ In k0 (k :: ks) -> gett o' k0 = gett o k0)).
    { intros E1 E2. destruct (IH o N') as (o' & L & Hh & Km & G1 & G2); [intros; apply Hk; right; assumption|].
      exists o'. rewrite E1. split; [assumption|]. split; [assumption|]. split; [assumption|]. split.
      - intros k0 [<-|I0]; [rewrite G2 by assumption; assumption|apply G1; assumption].
      - intros k0 I0. apply G2. intros C. apply I0. right. assumption. }
    assert (D : (forall e i, k <> KPlain ColDen e i) \/ exists e i, k = KPlain ColDen e i).
    { destruct k as [e i l|[] e i|d e i]; try (left; discriminate). right. exists e, i. reflexivity. }
    destruct D as [D|(e & i & ->)]; [apply Skip; [apply Other; assumption|rewrite sub_other by assumption; reflexivity]|].
    destruct (Hk e i (or_introl eq_refl)) as (a & Ga & Hv).
    destruct (Nat.ltb 1 (size a)) eqn:Sa.
    + apply Skip.
      * cbn [load_columns]. unfold load_velocity_as_column. rewrite Ga, Sa. reflexivity.
      * rewrite Ga. cbn [sub]. rewrite Sa. reflexivity.
    + apply Nat.ltb_ge in Sa. destruct (Hv Sa) as (v & Rv). set (k := KPlain ColDen e i) in *.
      assert (Gk : forall k', gett (upd o k v) k' = if key_dec k' k then Some v else gett o k') by (intros; apply get_set).
      destruct (IH (upd o k v) N') as (o' & L & Hh & Km & G1 & G2).
      { intros e' i' I'. destruct (Hk e' i' (or_intror I')) as (a' & Ga' & Hv'). exists a'. split; [|assumption].
        rewrite Gk. destruct (key_dec (KPlain ColDen e' i') k) as [E1|]; [|assumption]. rewrite E1 in I'. contradiction. }
      exists o'. split.
      { cbn [load_columns]. unfold k at 1. unfold load_velocity_as_column. fold k. rewrite Ga. destruct (Nat.ltb_spec 1 (size a)); [lia|]. rewrite Rv. exact L. }
      split; [rewrite Hh; reflexivity|]. split. { rewrite Km. apply set_keys. congruence. }
      split.
      * intros k0 [<-|I0].
        -- rewrite G2 by assumption. rewrite Gk. destruct (key_dec k k); [|contradiction]. rewrite Ga. unfold k. cbn [sub].
           destruct (Nat.ltb_spec 1 (size a)); [lia|]. rewrite Rv. reflexivity.
        -- rewrite G1 by assumption. rewrite Gk. destruct (key_dec k0 k) as [->|]; [contradiction|reflexivity].
      * intros k0 I0. rewrite G2 by (intros C; apply I0; right; assumption). rewrite Gk.
        destruct (key_dec k0 k) as [->|]; [exfalso; apply I0; left; reflexivity|reflexivity].
Qed.

(** A tiny column density without a velocity. *)
Lemma load_columns_fails : forall f ks (o : obj), NoDup ks ->
  (forall e i, In (KPlain ColDen e i) ks -> gett o (KPlain ColDen e i) <> None) ->
  (forall k, read f k <> Err IOError /\ read f k <> Err ValueError) ->
  forall e i a, In (KPlain ColDen e i) ks -> gett o (KPlain ColDen e i) = Some a -> (size a <= 1)%nat ->
  (forall v, read f (KDerived Velocity e i) <> Ok v) -> exists o', load_columns size f ks o = (o', Some KeyError).
Proof.
  intros f. induction ks as [|k ks IH]; intros o N Hk Hr e i a I Ga Sa Nv; [contradiction|].
  inversion_clear N as [|? ? Nk N'].
  assert (Rk : forall k, (exists v, read f k = Ok v) \/ read f k = Err KeyError).
  { intros k0. destruct (Hr k0) as (H1 & H2). destruct (read f k0) as [v|[]]; try congruence; [left; exists v; reflexivity|right; reflexivity]. }
  assert (D : (forall e i, k <> KPlain ColDen e i) \/ exists e i, k = KPlain ColDen e i).
  { destruct k as [e' i' l|[] e' i'|d e' i']; try (left; discriminate). right. exists e', i'. reflexivity. }
  destruct D as [D|(e' & i' & ->)].
  - assert (Other : load_columns size f (k :: ks) o = load_columns size f ks o).
    { destruct k as [e' i' l|[] e' i'|d e' i']; try reflexivity. exfalso. apply (D e' i'). reflexivity. }
    rewrite Other. destruct I as [->|I]; [exfalso; apply (D e i); reflexivity|].
    apply (IH o N') with (e := e) (i := i) (a := a); try assumption. intros; apply Hk; right; assumption.
  - set (k := KPlain ColDen e' i') in *. destruct (gett o k) as [a'|] eqn:Ga'; [|exfalso; apply (Hk e' i' (or_introl eq_refl)); exact Ga'].
    cbn [load_columns]. unfold k at 1. unfold load_velocity_as_column. fold k. rewrite Ga'.
    destruct (Nat.ltb_spec 1 (size a')) as [L|L].
    + destruct I as [E1|I]; [exfalso; rewrite <- E1 in Ga; fold k in Ga; rewrite Ga' in Ga; injection Ga as ->; lia|].
      apply (IH o N') with (e := e) (i := i) (a := a); try assumption. intros; apply Hk; right; assumption.
    + destruct (Rk (KDerived Velocity e' i')) as [(v & Rv)|Rv]; rewrite Rv; [|eexists; reflexivity].
      destruct I as [E1|I]. { exfalso. injection E1 as <- <-. apply (Nv v Rv). }
      assert (Gk : forall k', gett (upd o k v) k' = if key_dec k' k then Some v else gett o k') by (intros; apply get_set).
      apply (IH (upd o k v) N') with (e := e) (i := i) (a := a); try assumption.
      * intros e0 i0 I0. rewrite Gk. destruct (key_dec (KPlain ColDen e0 i0) k); [discriminate|apply Hk; right; assumption].
      * rewrite Gk. destruct (key_dec (KPlain ColDen e i) k) as [E1|]; [|assumption]. rewrite E1 in I. contradiction.
Qed.

(** The optical depths and column densities are loaded. *)
Lemma three_loaded : forall f E o, Inv f E o -> exists o1 o2 o3 : obj,
  load_all size f (GPlain TauObs) o = (o1, None) /\ load_all size f GTau o1 = (o2, None) /\ load_all size f (GPlain ColDen) o2 = (o3, None) /\
  Inv f E o3 /\ (forall k, ~ is_derived k -> gett o k <> None -> gett o3 k = Some (E k)) /\
  (forall k, is_derived k -> gett o3 k = gett o k) /\ hdr o3 = hdr o /\ map fst (cache o3) = map fst (cache o).
Proof.
  intros f E o I.
  destruct (load_all_inv size fresh weighted f E (GPlain TauObs) o I) as (o1 & L1 & I1 & Y1 & N1 & M1 & H1 & K1).
  destruct (load_all_inv size fresh weighted f E GTau o1 I1) as (o2 & L2 & I2 & Y2 & N2 & M2 & H2 & K2).
  destruct (load_all_inv size fresh weighted f E (GPlain ColDen) o2 I2) as (o3 & L3 & I3 & Y3 & N3 & M3 & H3 & K3).
  exists o1, o2, o3. split; [assumption|]. split; [assumption|]. split; [assumption|]. split; [assumption|]. split; [|split; [|split; congruence]].
  - intros k Nk Gk.
    assert (G1 : gett o1 k <> None) by (intros C; apply Gk; apply (keys_eq_same o o1 K1); assumption).
    assert (G2 : gett o2 k <> None) by (intros C; apply G1; apply (keys_eq_same o1 o2 K2); assumption).
    destruct k as [e i l|p e i|d e i].
    + apply M3, Y2; [reflexivity|assumption].
    + destruct p; [apply M3, M2, Y1; [reflexivity|assumption]|apply Y3; [reflexivity|assumption]].
    + contradiction Nk. exact Logic.I.
  - intros k Nk. destruct k as [e i l|p e i|d e i]; try contradiction Nk. rewrite N3, N2, N1; reflexivity.
Qed.

Lemma em_before_save : forall f E o, Inv f E o ->
  (forall e i, gett o (KPlain ColDen e i) <> None -> (size (E (KPlain ColDen e i)) <= 1)%nat -> exists v, read f (KDerived Velocity e i) = Ok v) ->
  exists o', em_load_before_save size f o = Ok o' /\ one_each o' /\ hdr o' = hdr o /\ map fst (cache o') = map fst (cache o) /\
    (forall k, ~ is_derived k -> gett o k <> None -> gett o' k = sub f k (Some (E k))) /\ (forall k, is_derived k -> gett o' k = gett o k).
Proof.
  intros f E o I Hv. unfold em_load_before_save.
  destruct (three_loaded f E o I) as (o1 & o2 & o3 & -> & -> & -> & I3 & Y & Nd & Hh & Km).
  destruct (load_columns_ok f (map fst (cache o3)) o3) as (o4 & -> & Hh4 & Km4 & G1 & G2).
  - apply I3.
  - intros e i Hi. rewrite Km in Hi. assert (Go : gett o (KPlain ColDen e i) <> None) by (intros C; apply get_None in C; contradiction).
    exists (E (KPlain ColDen e i)). split; [apply Y; [intros []|assumption]|apply Hv; assumption].
  - exists o4. split; [reflexivity|]. split. { unfold one_each. rewrite Km4. apply I3. } split; [congruence|]. split; [congruence|]. split.
    + intros k Nk Gk. rewrite G1, Y; [reflexivity|assumption|assumption|]. rewrite Km.
      destruct (in_dec key_dec k (map fst (cache o))) as [|C]; [assumption|]. exfalso. apply Gk, get_None. assumption.
    + intros k Dk. rewrite <- (Nd k Dk). destruct (in_dec key_dec k (map fst (cache o3))) as [C|C].
      * rewrite G1 by assumption. apply sub_other. intros e i ->. exact Dk.
      * apply G2. assumption.
Qed.

Lemma em_save_done : forall d (o : obj) o', em_load_before_save size (main d) o = Ok o' ->
  em_save size d o = Ok (o', {| main := Good (contents o'); backup := backup (moved d) |}).
Proof. intros d o o' E. unfold em_save. rewrite E. reflexivity. Qed.

Lemma C94_resave_aux : forall (F : file) (d : disk A H) ks, written F -> main d = Good F -> (forall k, In k ks -> in_range k) ->
  (forall e i, tiny_column size F e i -> exists v, stored F (KDerived Velocity e i) v) ->
  exists o vs o1 o2 d' F', load hole (Good F) = Ok o /\ run (map (Get false) ks) d o = Ok (vs, d, o1) /\ em_save size d o1 = Ok (o2, d') /\
    main d' = Good F' /\ backup d' = Good F /\ written F' /\ f_hdr F' = f_hdr F /\
    (forall k a, stored F k a -> ~ weighted_quantity k -> (forall e i, k = KPlain ColDen e i -> (1 < size a)%nat) -> stored F' k a) /\
    (forall k a, stored F k a -> weighted_quantity k -> (In k ks -> stored F' k a) /\ (~ In k ks -> stored F' k hole)) /\
    (forall e i v, tiny_column size F e i -> stored F (KDerived Velocity e i) v -> stored F' (KPlain ColDen e i) v).
Proof.
  intros F d ks W Hd Hr Ht. destruct (load_written hole F W) as (o & Lo & Ho & N & Rg & G1 & G2).
  pose proof (load_inv size hole fresh weighted F o Hhole W Lo) as I.
  set (E := expect (fun k => match read (Good F) k with Ok a => Some a | Err _ => None end)) in I.
  assert (HE : forall k a, stored F k a -> E k = a).
  { intros k a S1. apply expect_known. apply read_stored in S1; [|apply W]. rewrite S1. reflexivity. }
  rewrite <- Hd in I.
  destruct (run_gets size fresh weighted Hlarge (main d) E ks d o eq_refl I) as (o1 & R & I1 & K1 & K2 & K3 & K4 & K5 & K6).
  assert (Known : forall k, (exists a, stored F k a) \/ E k = comp fresh weighted E k).
  { intros k. destruct (read (Good F) k) as [a|x] eqn:Rk; [left; exists a; apply read_stored; [apply W|assumption]|right]. apply expect_new. rewrite Rk. reflexivity. }
  destruct (em_before_save (main d) E o1 I1) as (o2 & L & N2 & Hh & Km & Y & Ne).
  { intros e i _ Se. destruct (Known (KPlain ColDen e i)) as [(a & Sa)|C].
    - rewrite (HE _ a Sa) in Se. destruct (Ht e i) as (v & Sv); [exists a; split; assumption|]. exists v. rewrite Hd. apply read_stored; [apply W|assumption].
    - apply (large_comp size fresh weighted Hlarge E) in C. lia. }
  exists o. eexists _, o1, o2, _, (contents o2). split; [assumption|]. split; [exact R|]. split; [apply em_save_done; assumption|].
  cbn [main backup]. split; [reflexivity|]. split. { unfold moved. rewrite Hd. reflexivity. }
  split. { apply contents_written; [assumption|]. intros k G. destruct (gett o1 k) eqn:Go1; [|exfalso; apply G; apply (keys_eq_same o1 o2 Km); assumption].
           destruct (K5 Hr k ltac:(congruence)) as [C|C]; [apply Rg; assumption|assumption]. }
  split. { cbn. congruence. }
  assert (Go1 : forall k a, stored F k a -> gett o1 k <> None).
  { intros k a S1. apply K1. rewrite (G1 k) by (exists a; assumption). discriminate. }
  split; [|split].
  - intros k a S1 Nk Hs. apply contents_stored; [assumption|]. rewrite (Y k Nk (Go1 k a S1)), (HE k a S1).
    destruct k as [e i l|[] e i|dd e i]; try reflexivity. cbn [sub]. specialize (Hs e i eq_refl). destruct (Nat.ltb_spec 1 (size a)); [reflexivity|lia].
  - intros k a S1 Dk. split; intros Ik; apply contents_stored; try assumption; rewrite (Ne k Dk).
    + rewrite <- (HE k a S1). apply K3. assumption.
    + rewrite (K4 k Ik Dk). apply G1. exists a. assumption.
  - intros e i v (c & Sc & Lc) Sv. apply contents_stored; [assumption|]. rewrite (Y (KPlain ColDen e i) (fun x => x) (Go1 _ c Sc)), (HE _ c Sc). cbn [sub].
    destruct (Nat.ltb_spec 1 (size c)); [lia|]. rewrite Hd. apply read_stored in Sv; [|apply W]. rewrite Sv. reflexivity.
Qed.

Lemma C94_keyerror_aux : forall (F : file) (d : disk A H) e i, written F -> main d = Good F -> tiny_column size F e i ->
  (forall v, ~ stored F (KDerived Velocity e i) v) -> exists o, load hole (Good F) = Ok o /\ em_save size d o = Err KeyError.
Proof.
  intros F d e i W Hd (c & Sc & Lc) Nv. destruct (load_written hole F W) as (o & Lo & Ho & N & Rg & G1 & G2).
  pose proof (load_inv size hole fresh weighted F o Hhole W Lo) as I.
  set (E := expect (fun k => match read (Good F) k with Ok a => Some a | Err _ => None end)) in I.
  assert (HE : forall k a, stored F k a -> E k = a).
  { intros k a S1. apply expect_known. apply read_stored in S1; [|apply W]. rewrite S1. reflexivity. }
  exists o. split; [assumption|]. unfold em_save, em_load_before_save. rewrite Hd.
  destruct (three_loaded (Good F) E o I) as (o1 & o2 & o3 & -> & -> & -> & I3 & Y & Nd & Hh & Km).
  assert (Gc : gett o3 (KPlain ColDen e i) = Some c).
  { rewrite Y; [rewrite (HE _ c Sc); reflexivity|intros []|]. rewrite (G1 (KPlain ColDen e i)) by (exists c; assumption). discriminate. }
  destruct (load_columns_fails (Good F) (map fst (cache o3)) o3) with (e := e) (i := i) (a := c) as (o4 & ->); try assumption.
  - apply I3.
  - intros e' i' I' C. apply get_None in C. contradiction.
  - intros k. unfold read. destruct (present F (fst (path k))); [|split; discriminate].
    destruct (get path_dec (f_data F) (path k)); split; discriminate.
  - destruct (in_dec key_dec (KPlain ColDen e i) (map fst (cache o3))) as [|C]; [assumption|]. apply (get_None key_dec) in C. congruence.
  - intros v C. apply (Nv v). apply read_stored; [apply W|assumption].
  - reflexivity.
Qed.

Lemma C94_lost_aux : forall (F : file) (d : disk A H) k a, written F -> main d = Good F -> stored F k a -> weighted_quantity k -> a <> hole ->
  (forall e i c, stored F (KPlain ColDen e i) c -> (1 < size c)%nat) ->
  exists o1 o1' d1 o2 o2' d2, load hole (main d) = Ok o1 /\ em_save size d o1 = Ok (o1', d1) /\
    load hole (main d1) = Ok o2 /\ em_save size d1 o2 = Ok (o2', d2) /\
    forall G, main d2 = Good G \/ backup d2 = Good G -> ~ stored G k a.
Proof.
  intros F d k a W Hd S1 Nk Na Hc.
  assert (Ht : forall (G : file), (forall e i c, stored G (KPlain ColDen e i) c -> (1 < size c)%nat) ->
    forall e i, tiny_column size G e i -> exists v, stored G (KDerived Velocity e i) v).
  { intros G Hg e i (c & Sc & Lc). specialize (Hg e i c Sc). lia. }
  destruct (C94_resave_aux F d [] W Hd ltac:(intros ? []) (Ht F Hc)) as (o & vs & o1 & o2 & d1 & F1 & L1 & R1 & E1 & M1 & B1 & W1 & _ & P1 & Q1 & _).
  cbn [map StoreModel.run] in R1. injection R1 as _ <-.
  assert (Hc1 : forall e i c, stored F1 (KPlain ColDen e i) c -> (1 < size c)%nat).
  { intros e i c Sc.
    (* the keys of F1 are those of F *)
    destruct (load_written hole F W) as (o0 & Lo & Ho & N & Rg & G1 & G2). rewrite L1 in Lo. injection Lo as <-.
    pose proof (load_inv size hole fresh weighted F o Hhole W L1) as I.
    destruct (read (Good F) (KPlain ColDen e i)) as [b|x] eqn:Rb.
    - apply read_stored in Rb; [|apply W]. assert (Sb : stored F1 (KPlain ColDen e i) b).
      { apply P1; [assumption|intros []|]. intros e' i' E'. injection E' as <- <-. apply (Hc _ _ _ Rb). }
      rewrite (stored_unique F1 _ c b W1 Sc Sb). apply (Hc _ _ _ Rb).
    - exfalso. unfold em_save in E1. destruct (em_load_before_save size (main d) o) as [o3|] eqn:Le; [|discriminate].
      injection E1 as <- <-. cbn in M1. injection M1 as <-.
      rewrite Hd in Le. destruct (em_before_save (Good F) _ o I) as (o4 & L4 & N4 & _ & Km & _ & _).
      { intros e' i' Ge Se. destruct (read (Good F) (KPlain ColDen e' i')) as [b'|x'] eqn:Rb'.
        - apply read_stored in Rb'; [|apply W]. exfalso. revert Se. rewrite (expect_known _ _ _ (KPlain ColDen e' i') b').
          + specialize (Hc _ _ _ Rb'). lia.
          + apply read_stored in Rb'; [|apply W]. rewrite Rb'. reflexivity.
        - exfalso. apply Ge, G2. intros b' C. apply read_stored in C; [|apply W]. congruence. }
      rewrite Le in L4. injection L4 as <-. apply contents_stored in Sc; [|assumption].
      assert (Gn : gett o (KPlain ColDen e i) = None). { apply G2. intros b' C. apply read_stored in C; [|apply W]. congruence. }
      apply (keys_eq_same o o3 Km) in Gn. congruence. }
  destruct (C94_resave_aux F1 d1 [] W1 M1 ltac:(intros ? []) (Ht F1 Hc1)) as (o' & vs' & o1' & o2' & d2 & F2 & L2 & R2 & E2 & M2 & B2 & W2 & _ & P2 & Q2 & _).
  cbn [map StoreModel.run] in R2. injection R2 as _ <-.
  exists o, o2, d1, o', o2', d2. rewrite Hd, M1. split; [assumption|]. split; [assumption|]. split; [assumption|]. split; [assumption|].
  destruct (Q1 k a S1 Nk) as (_ & S2). specialize (S2 (fun x => x)). destruct (Q2 k hole S2 Nk) as (_ & S3). specialize (S3 (fun x => x)).
  intros G [C|C] Sg.
  - rewrite M2 in C. injection C as <-. apply Na. apply (stored_unique F2 k); assumption.
  - rewrite B2 in C. injection C as <-. apply Na. apply (stored_unique F1 k); assumption.
Qed.
End Proofs.

(** ** Refusals *)
Section Refusals.
Context {A H : Type}.
Local Notation disk := (disk A H).
Local Notation file := (file A H).

Lemma C95_base_aux : forall env (F old : file) (d : disk) states raised, main d = Good old -> base_attempt env F d = (states, raised) ->
  (forall s, In s states -> recoverable s old) /\
  (raised = false <-> (dir_there env = true \/ mkdir_works env = true) /\ move_works env = true /\ open_works env = true) /\
  (raised = false -> last states d = {| main := Good F; backup := Good old |}).
Proof.
  intros env F old d states raised Hd E. unfold base_attempt in E. rewrite Hd in E. unfold moved in E. rewrite Hd in E.
  cbn [exists_file andb] in E.
  destruct (dir_there env), (mkdir_works env), (move_works env), (open_works env); cbn in E; injection E as <- <-; cbn [In last];
    (split; [intros s Hs; repeat (destruct Hs as [<-|Hs]); try contradiction; unfold recoverable; cbn; auto|]);
    (split; [split; [try discriminate; auto|intros (A1 & A2 & A3); try reflexivity; try discriminate; destruct A1; discriminate]|]);
    intros C; try discriminate C; reflexivity.
Qed.

Lemma C95_safe_aux : forall env (F old : file) (d : disk) states raised, main d = Good old -> move_works env = true ->
  em_attempt env F d = (states, raised) ->
  (forall s, In s states -> recoverable s old) /\
  (raised = false <-> dir_there env = true /\ (open_works env = true \/ reopen_works env = true)) /\
  (raised = false -> last states d = {| main := Good F; backup := Good old |}).
Proof.
  intros env F old d states raised Hd Hm E. unfold em_attempt in E. rewrite Hd, Hm in E. unfold moved in E. rewrite Hd in E.
  cbn [exists_file andb negb] in E.
  destruct (dir_there env), (open_works env), (reopen_works env); cbn in E; injection E as <- <-; cbn [In last];
    (split; [intros s Hs; repeat (destruct Hs as [<-|Hs]); try contradiction; unfold recoverable; cbn; auto|]);
    (split; [split; [try discriminate; auto|intros (A1 & A2); try reflexivity; try discriminate; destruct A2; discriminate]|]);
    intros C; try discriminate C; reflexivity.
Qed.

Lemma C95_unsafe_aux : forall env (F old : file) (d : disk), main d = Good old -> backup d <> Good old -> F <> old ->
  dir_there env = true -> move_works env = false -> reopen_works env = true ->
  exists torn final, em_attempt env F d = ([d; torn; final], false) /\ main torn = Torn /\ main final = Good F /\
    ~ recoverable torn old /\ ~ recoverable final old.
Proof.
  intros env F old d Hd Hb Hn H1 H2 H3. unfold em_attempt. rewrite Hd, H1, H2, H3. cbn.
  eexists _, _. split; [reflexivity|]. cbn. split; [reflexivity|]. split; [reflexivity|]. unfold recoverable. cbn.
  split; intros [C|C]; try discriminate; try contradiction. injection C as C. contradiction.
Qed.

Lemma C95_directory_aux : forall env (F : file) (d : disk), main d = Absent -> dir_there env = false -> mkdir_works env = true -> open_works env = true ->
  snd (base_attempt env F d) = false /\ last (fst (base_attempt env F d)) d = {| main := Good F; backup := backup d |} /\
  snd (em_attempt env F d) = true /\ (forall s, In s (fst (em_attempt env F d)) -> s = d).
Proof.
  intros env F d Hd H1 H2 H3. unfold base_attempt, em_attempt, moved. rewrite Hd, H1, H2, H3. cbn.
  repeat split; try reflexivity. intros s [<-|[<-|[]]]; reflexivity.
Qed.
End Refusals.

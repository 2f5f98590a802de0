(** Proofs about the cache and the save file: the properties. *)
From Coq Require Import ZArith List String Bool Lia Arith.
From Verif Require Import StoreModel StoreSpec StoreProofs.
Import ListNotations.
Local Open Scope Z_scope.

Section Proofs.
Context {A H : Type} (size : A -> nat) (hole : A).
Variable fresh : key -> A.
Variable weighted : key -> A -> A.
Hypothesis Hlarge : large size fresh weighted.
Hypothesis Hhole : (size hole <= 1)%nat.

Local Notation obj := (obj A H).
Local Notation file := (file A H).
Local Notation fstate := (fstate A H).
Local Notation gett o k := (get key_dec (cache o) k).
Local Notation Inv := (Inv size fresh weighted).
Local Notation expect := (expect fresh weighted).
Local Notation run := (run size fresh weighted).

Lemma expect_ext : forall known known', (forall k, known k = known' k) -> forall k, expect known k = expect known' k.
Proof. intros known known' E [e i l|p e i|d e i]; cbn; rewrite ?E; reflexivity. Qed.

Lemma Inv_ext : forall (f : fstate) E E' o, (forall k, E k = E' k) -> Inv f E o -> Inv f E' o.
Proof.
  intros f E E' o X I. constructor.
  - apply I.
  - intros k a G. rewrite <- X. apply I. assumption.
  - intros k G. rewrite <- X. rewrite (inv_new _ _ _ _ _ _ I k G). destruct k; cbn; rewrite ?X; reflexivity.
Qed.

Lemma gets_app : forall ops1 ops2 (d d' d2 : disk A H) (o o' o2 : obj) vs vs2, run ops1 d o = Ok (vs, d', o') -> run ops2 d' o' = Ok (vs2, d2, o2) ->
  run (ops1 ++ ops2) d o = Ok (vs ++ vs2, d2, o2).
Proof.
  induction ops1 as [|[force k|] ops1 IH]; intros ops2 d d' d2 o o' o2 vs vs2 R1 R2.
  - cbn in R1. injection R1 as <- <- <-. assumption.
  - cbn [Datatypes.app StoreModel.run] in *. destruct (access size fresh weighted (main d) force k o) as [(a, o1)|]; [|discriminate].
    destruct (run ops1 d o1) as [((l, d1), o3)|] eqn:R; [|discriminate]. injection R1 as <- <- <-. rewrite (IH _ _ _ _ _ _ _ _ _ R R2). reflexivity.
  - cbn [Datatypes.app StoreModel.run] in *. destruct (save size d o) as [(o1, d1)|]; [|discriminate]. apply (IH _ _ _ _ _ _ _ _ _ R1 R2).
Qed.

(** ** C18 *)
Lemma C18_roundtrip_aux : forall (d : disk A H) (o : obj), one_each o ->
  (forall k a, cached o k a -> (1 < size a)%nat /\ in_range k) ->
  exists o1 d' o', save size d o = Ok (o1, d') /\ load hole (main d') = Ok o' /\ hdr o' = hdr o /\
    forall ks, exists vs o'', run (map (Get false) ks) d' o' = Ok (vs, d', o'') /\ Forall2 (answer (cached o) fresh weighted) ks vs.
Proof.
  intros d o N Hc. set (known := fun k => gett o k). set (E := expect known).
  assert (Hk : forall k a, known k = Some a -> E k = a) by (intros k a; apply expect_known).
  assert (Hn : forall k, known k = None -> E k = comp fresh weighted E k) by (intros k; apply expect_new).
  assert (I : Inv (main d) E o).
  { constructor; [assumption| |assumption]. intros k a G. left. rewrite (Hk k a G). split; [|reflexivity]. apply get_cached in G; [|assumption]. apply (Hc k a G). }
  destruct (before_save_inv size fresh weighted (main d) E o I) as (o1 & L & I1 & Y & Ne & Hh & Km).
  assert (Same : forall k, gett o1 k = gett o k).
  { intros k. assert (Dn : neglected k \/ ~ neglected k) by (destruct k as [| |[] ? ?]; cbn; tauto). destruct Dn as [Dn|Dn]; [apply Ne; assumption|].
    destruct (gett o k) as [a|] eqn:G.
    - rewrite Y; [|assumption|congruence]. f_equal. apply Hk. assumption.
    - apply (keys_eq_same o o1 Km). assumption. }
  assert (R1 : forall k, gett o1 k <> None -> in_range k).
  { intros k G. rewrite Same in G. destruct (gett o k) as [a|] eqn:Ga; [|congruence]. apply get_cached in Ga; [|assumption]. apply (Hc k a Ga). }
  pose proof (inv_once _ _ _ _ _ _ I1) as N1.
  pose proof (contents_written o1 N1 R1) as W.
  destruct (load_written hole (contents o1) W) as (o' & Lo & Ho & _).
  exists o1. eexists. exists o'. rewrite (save_done size d o o1 L). split; [reflexivity|]. cbn [main]. split; [assumption|].
  split. { rewrite Ho. cbn. assumption. }
  pose proof (load_inv size hole fresh weighted (contents o1) o' Hhole W Lo) as I'.
  assert (X : forall k, expect (fun k => match read (Good (contents o1)) k with Ok a => Some a | Err _ => None end) k = E k).
  { apply expect_ext. intros k. unfold known. rewrite <- Same. destruct (read (Good (contents o1)) k) as [a|e] eqn:R.
    - apply read_stored in R; [|apply W]. apply contents_stored in R; [|assumption]. congruence.
    - destruct (gett o1 k) as [a|] eqn:G; [|reflexivity]. exfalso. apply contents_stored in G; [|assumption]. apply read_stored in G; [|apply W]. congruence. }
  apply (Inv_ext _ _ _ _ X) in I'. intros ks.
  destruct (run_gets size fresh weighted Hlarge (Good (contents o1)) E ks {| main := Good (contents o1); backup := backup (moved d) |} o' eq_refl I') as (o'' & R & _).
  exists (map E ks), o''. split; [exact R|]. clear R.
  assert (An : forall k, answer (cached o) fresh weighted k (E k)).
  { apply answer_E.
    - split; [intros k a C; apply Hk; apply get_cached; assumption|]. intros k C. apply Hn. unfold known. destruct (gett o k) as [a|] eqn:G; [|reflexivity].
      apply get_cached in G; [|assumption]. exfalso. apply (C a G).
    - intros k. destruct (gett o k) as [a|] eqn:G; [left; exists a; apply get_cached; assumption|right]. intros a C. apply get_cached in C; [|assumption]. congruence. }
  induction ks as [|k ks IH]; [constructor|]. cbn [map]. constructor; [apply An|assumption].
Qed.

(** ** C19 *)
Lemma C19_resave_aux : forall (F : file) (d : disk A H) ks, written F -> main d = Good F -> (forall k, In k ks -> in_range k) ->
  exists o vs d' o' F', load hole (Good F) = Ok o /\ run (map (Get false) ks ++ [Save]) d o = Ok (vs, d', o') /\
    main d' = Good F' /\ backup d' = Good F /\ written F' /\ f_hdr F' = f_hdr F /\
    forall k a, stored F k a -> (~ neglected k \/ In k ks -> stored F' k a) /\ (neglected k -> ~ In k ks -> stored F' k hole).
Proof.
  intros F d ks W Hd Hr. destruct (load_written hole F W) as (o & Lo & Ho & N & Rg & G1 & G2).
  pose proof (load_inv size hole fresh weighted F o Hhole W Lo) as I.
  set (E := expect (fun k => match read (Good F) k with Ok a => Some a | Err _ => None end)) in I.
  assert (HE : forall k a, stored F k a -> E k = a).
  { intros k a S1. apply expect_known. apply read_stored in S1; [|apply W]. rewrite S1. reflexivity. }
  rewrite <- Hd in I.
  destruct (run_gets size fresh weighted Hlarge (main d) E ks d o eq_refl I) as (o1 & R & I1 & K1 & K2 & K3 & K4 & K5 & K6).
  destruct (before_save_inv size fresh weighted (main d) E o1 I1) as (o2 & L & I2 & Y & Ne & Hh & Km).
  exists o. eexists _, _, o2, (contents o2). split; [assumption|]. split.
  { eapply gets_app; [exact R|]. cbn [StoreModel.run]. rewrite (save_done size d o1 o2 L). reflexivity. }
  cbn [main backup]. split; [reflexivity|]. split. { unfold moved. rewrite Hd. reflexivity. }
  pose proof (inv_once _ _ _ _ _ _ I2) as N2.
  split. { apply contents_written; [assumption|]. intros k G. destruct (gett o1 k) eqn:Go1; [|exfalso; apply G; apply (keys_eq_same o1 o2 Km); assumption].
           destruct (K5 Hr k ltac:(congruence)) as [C|C]; [apply Rg; assumption|assumption]. }
  split. { cbn. congruence. }
  intros k a S1. assert (Gk : gett o k = Some hole) by (apply G1; exists a; assumption).
  assert (Gk1 : gett o1 k <> None) by (apply K1; congruence).
  assert (Dn : neglected k \/ ~ neglected k) by (destruct k as [| |[] ? ?]; cbn; tauto). split.
  - intros C. apply contents_stored; [assumption|]. rewrite <- (HE k a S1). destruct Dn as [Dn|Dn]; [|apply Y; assumption].
    destruct C as [C|C]; [contradiction|]. rewrite Ne by assumption. apply K3. assumption.
  - intros Nk Ni. apply contents_stored; [assumption|]. rewrite Ne by assumption. rewrite K4; [assumption|assumption|apply neglected_derived; assumption].
Qed.

Lemma stored_unique : forall (F : file) k a b, written F -> stored F k a -> stored F k b -> a = b.
Proof. intros F k a b (N & _) Sa Sb. apply read_stored in Sa; [|assumption]. apply read_stored in Sb; [|assumption]. congruence. Qed.

Lemma C19_lost_aux : forall (F : file) (d : disk A H) k a, written F -> main d = Good F -> stored F k a -> neglected k -> a <> hole ->
  exists o1 o1' d1 o2 o2' d2, load hole (main d) = Ok o1 /\ save size d o1 = Ok (o1', d1) /\
    load hole (main d1) = Ok o2 /\ save size d1 o2 = Ok (o2', d2) /\
    forall G, main d2 = Good G \/ backup d2 = Good G -> ~ stored G k a.
Proof.
  intros F d k a W Hd S1 Nk Na.
  destruct (C19_resave_aux F d [] W Hd ltac:(intros ? [])) as (o & vs & d1 & o1 & F1 & L1 & R1 & M1 & B1 & W1 & _ & S2).
  destruct (C19_resave_aux F1 d1 [] W1 M1 ltac:(intros ? [])) as (o2 & vs2 & d2 & o3 & F2 & L2 & R2 & M2 & B2 & W2 & _ & S3).
  cbn [map Datatypes.app StoreModel.run] in R1, R2.
  destruct (save size d o) as [(oa, da)|] eqn:Sv1; [|discriminate]. injection R1 as _ <- <-.
  destruct (save size da o2) as [(ob, db)|] eqn:Sv2; [|discriminate]. injection R2 as _ <- <-.
  exists o, oa, da, o2, ob, db. rewrite Hd, M1. split; [assumption|]. split; [assumption|]. split; [assumption|]. split; [assumption|].
  destruct (S2 k a S1) as (_ & S2'). specialize (S2' Nk ltac:(intros [])). destruct (S3 k hole S2') as (_ & S3'). specialize (S3' Nk ltac:(intros [])).
  intros G [E|E] C.
  - rewrite M2 in E. injection E as <-. apply Na. apply (stored_unique F2 k); assumption.
  - rewrite B2 in E. injection E as <-. apply Na. apply (stored_unique F1 k); assumption.
Qed.

(** ** C21 *)
Local Notation value := (value fresh weighted).
Local Notation faithful := (faithful size fresh weighted).

Lemma value_comp : forall k, value k = comp fresh weighted value k.
Proof. intros [e i l|p e i|d e i]; reflexivity. Qed.
Lemma value_large : forall k, (1 < size (value k))%nat.
Proof. intros k. destruct Hlarge as (L1 & L2). destruct k; cbn; auto. Qed.

Lemma faithful_Inv : forall (f : fstate) o, file_ok f -> faithful f o -> Inv f value o /\ forall k, gett o k <> None -> in_range k.
Proof.
  intros f o Hf (N & Hc). split.
  - constructor; [assumption| |intros; apply value_comp]. intros k a G. apply get_cached in G; [|assumption]. destruct (Hc k a G) as (_ & [C|(S1 & F & -> & S2)]).
    + left. assumption.
    + right. split; [assumption|]. apply read_stored; [apply (Hf F eq_refl)|assumption].
  - intros k G. destruct (gett o k) as [a|] eqn:Ga; [|congruence]. apply get_cached in Ga; [|assumption]. apply (Hc k a Ga).
Qed.

Lemma Inv_faithful : forall (f : fstate) o, file_ok f -> Inv f value o -> (forall k, gett o k <> None -> in_range k) -> faithful f o.
Proof.
  intros f o Hf I R. split; [apply I|]. intros k a C. apply get_cached in C; [|apply I]. split; [apply R; congruence|].
  destruct (inv_known _ _ _ _ _ _ I k a C) as [K|(S1 & Rd)]; [left; assumption|right]. split; [assumption|].
  destruct f as [| |F]; try discriminate. exists F. split; [reflexivity|]. apply read_stored; [apply (Hf F eq_refl)|assumption].
Qed.

Lemma save_faithful : forall (d : disk A H) (o : obj), file_ok (main d) -> Inv (main d) value o -> (forall k, gett o k <> None -> in_range k) -> all_read size o ->
  exists o' d', save size d o = Ok (o', d') /\ file_ok (main d') /\ Inv (main d') value o' /\ (forall k, gett o' k <> None -> in_range k) /\ all_read size o' /\
    hdr o' = hdr o /\ main d' = Good (contents o') /\ forall k, gett o k <> None -> gett o' k = Some (value k).
Proof.
  clear Hhole. intros d o Hf I R Ar. destruct (before_save_inv size fresh weighted (main d) value o I) as (o1 & L & I1 & Y & Ne & Hh & Km).
  assert (All : forall k, gett o k <> None -> gett o1 k = Some (value k)).
  { intros k G. assert (Dn : neglected k \/ ~ neglected k) by (destruct k as [| |[] ? ?]; cbn; tauto). destruct Dn as [Dn|Dn]; [|apply Y; assumption].
    rewrite Ne by assumption. destruct (gett o k) as [a|] eqn:Ga; [|congruence]. pose proof Ga as Gb. apply get_cached in Gb; [|apply I].
    pose proof (Ar k a Gb Dn). destruct (inv_known _ _ _ _ _ _ I k a Ga) as [(_ & ->)|(C & _)]; [reflexivity|lia]. }
  assert (Rg : forall k, gett o1 k <> None -> in_range k).
  { intros k G. apply R. intros C. apply G. apply (keys_eq_same o o1 Km). assumption. }
  pose proof (inv_once _ _ _ _ _ _ I1) as N1.
  assert (W : file_ok (Good (contents o1))) by (intros F E; injection E as <-; apply contents_written; assumption).
  exists o1. eexists. split; [apply (save_done size d o o1 L)|]. cbn [main]. split; [assumption|].
  split.
  { constructor; [assumption| |intros; apply value_comp]. intros k a G. left.
    assert (Go : gett o k <> None) by (intros C; apply (keys_eq_same o o1 Km) in C; congruence). rewrite (All k Go) in G. injection G as <-. split; [apply value_large|reflexivity]. }
  split; [assumption|]. split.
  { intros k a C Nk. apply get_cached in C; [|assumption]. assert (Go : gett o k <> None) by (intros C'; apply (keys_eq_same o o1 Km) in C'; congruence).
    rewrite (All k Go) in C. injection C as <-. apply value_large. }
  split; [assumption|]. split; [reflexivity|assumption].
Qed.

Lemma run_any : forall ops (d : disk A H) (o : obj), file_ok (main d) -> Inv (main d) value o -> (forall k, gett o k <> None -> in_range k) ->
  (all_read size o \/ ~ In Save ops) -> (forall k, In k (accesses ops) -> in_range k) ->
  exists d' o', run ops d o = Ok (map value (accesses ops), d', o') /\ file_ok (main d') /\ Inv (main d') value o' /\ (forall k, gett o' k <> None -> in_range k) /\ hdr o' = hdr o /\
    (all_read size o -> all_read size o').
Proof.
  induction ops as [|[force k|] ops IH]; intros d o Hf I R Ar Rk.
  - exists d, o. cbn. split; [reflexivity|]. split; [assumption|]. split; [assumption|]. split; [assumption|]. split; [reflexivity|intros; assumption].
  - destruct (access_inv size fresh weighted Hlarge (main d) value o k force I ltac:(intros; apply value_comp)) as (o1 & Ac & I1 & S1).
    assert (Ar1 : all_read size o -> all_read size o1).
    { intros Ar' k' a C Nk. apply get_cached in C; [|apply I1]. destruct (key_dec k' k) as [->|Dk].
      - rewrite (st_now _ _ _ _ S1) in C. injection C as <-. apply value_large.
      - rewrite (st_negl _ _ _ _ S1) in C by (try apply neglected_derived; assumption). apply (Ar' k'); [apply get_cached; [apply I|assumption]|assumption]. }
    destruct (IH d o1 Hf I1) as (d' & o' & Rn & H1 & H2 & H3 & H4 & H5).
    { intros k' G. destruct (st_range _ _ _ _ S1 k' (Rk k (or_introl eq_refl)) G) as [C|C]; [apply R; assumption|assumption]. }
    { destruct Ar as [Ar|Ar]; [left; auto|right]. intros C. apply Ar. right. assumption. }
    { intros k' I'. apply Rk. right. assumption. }
    exists d', o'. cbn [StoreModel.run accesses map]. rewrite Ac, Rn. split; [reflexivity|]. split; [assumption|]. split; [assumption|]. split; [assumption|].
    split; [rewrite H4; apply (st_hdr _ _ _ _ S1)|auto].
  - destruct Ar as [Ar|Ar]; [|exfalso; apply Ar; left; reflexivity].
    destruct (save_faithful d o Hf I R Ar) as (o1 & d1 & Sv & Hf1 & I1 & R1 & Ar1 & Hh & _).
    destruct (IH d1 o1 Hf1 I1 R1 (or_introl Ar1)) as (d' & o' & Rn & H1 & H2 & H3 & H4 & H5). { intros k' I'. apply Rk. assumption. }
    exists d', o'. cbn [StoreModel.run accesses map]. rewrite Sv, Rn. split; [reflexivity|]. split; [assumption|]. split; [assumption|]. split; [assumption|].
    split; [congruence|auto].
Qed.

Lemma C21_transparent_aux : forall ops (d : disk A H) (o : obj), file_ok (main d) -> faithful (main d) o ->
  (all_read size o \/ ~ In Save ops) -> (forall k, In k (accesses ops) -> in_range k) ->
  exists d' o', run ops d o = Ok (map value (accesses ops), d', o') /\ faithful (main d') o' /\ file_ok (main d').
Proof.
  intros ops d o Hf Fa Ar Rk. destruct (faithful_Inv (main d) o Hf Fa) as (I & R).
  destruct (run_any ops d o Hf I R Ar Rk) as (d' & o' & Rn & H1 & H2 & H3 & _). exists d', o'. split; [assumption|]. split; [|assumption].
  apply Inv_faithful; assumption.
Qed.

Lemma C21_reload_aux : forall (d : disk A H) (o : obj), file_ok (main d) -> faithful (main d) o -> all_read size o ->
  exists o1 d' o', save size d o = Ok (o1, d') /\ load hole (main d') = Ok o' /\ hdr o' = hdr o /\ file_ok (main d') /\ faithful (main d') o' /\
    forall k, (exists a, cached o k a) <-> (exists a, cached o' k a).
Proof.
  intros d o Hf Fa Ar. destruct (faithful_Inv (main d) o Hf Fa) as (I & R).
  destruct (save_faithful d o Hf I R Ar) as (o1 & d' & Sv & Hf1 & I1 & R1 & Ar1 & Hh & M & All).
  assert (Km : forall k, gett o k = None <-> gett o1 k = None).
  { destruct (before_save_inv size fresh weighted (main d) value o I) as (o2 & L & _ & _ & _ & _ & Km).
    rewrite (save_done size d o o2 L) in Sv. injection Sv as -> _. apply keys_eq_same. assumption. }
  rewrite M in Hf1. pose proof (Hf1 _ eq_refl) as W. destruct (load_written hole (contents o1) W) as (o' & Lo & Ho & N' & Rg & G1 & G2).
  exists o1, d', o'. split; [assumption|]. rewrite M. split; [assumption|]. split; [cbn in Ho; congruence|]. split; [assumption|].
  pose proof (inv_once _ _ _ _ _ _ I1) as N1.
  assert (K : forall k, gett o k <> None <-> gett o' k <> None).
  { intros k. split.
    - intros G. rewrite (G1 k); [discriminate|]. exists (value k). apply contents_stored; [assumption|]. apply All. assumption.
    - intros G C. apply G. apply G2. intros a S1. apply contents_stored in S1; [|assumption]. apply Km in C. congruence. }
  split.
  - split; [assumption|]. intros k a C. apply get_cached in C; [|assumption]. split; [apply Rg; congruence|]. right.
    assert (Go : gett o k <> None) by (apply K; congruence).
    assert (S1 : stored (contents o1) k (value k)) by (apply contents_stored; [assumption|apply All; assumption]).
    rewrite (G1 k) in C by (exists (value k); assumption). injection C as <-. split; [assumption|]. exists (contents o1). split; [reflexivity|assumption].
  - intros k. specialize (K k). split; intros (a & C).
    + apply get_cached in C; [|apply I]. destruct (gett o' k) as [b|] eqn:G; [exists b; apply get_cached; assumption|]. destruct K as (K & _). exfalso. apply K; congruence.
    + apply get_cached in C; [|assumption]. destruct (gett o k) as [b|] eqn:G; [exists b; apply get_cached; [apply I|assumption]|]. destruct K as (_ & K). exfalso. apply K; congruence.
Qed.

(** Saving with an unread temperature: later answers are the placeholder. *)
Lemma C21_save_aux : forall (F : file) (d : disk A H) k a, written F -> main d = Good F -> stored F k a -> neglected k ->
  exists o d' o', load hole (main d) = Ok o /\ run [Save; Get false k] d o = Ok ([hole], d', o').
Proof.
  intros F d k a W Hd S1 Nk.
  destruct (C19_resave_aux F d [] W Hd ltac:(intros ? [])) as (o & vs & d1 & o1 & F1 & L1 & R1 & M1 & B1 & W1 & _ & S2).
  destruct (load_written hole F W) as (o0 & L0 & _ & N & Rg & G1 & G2). rewrite L1 in L0. injection L0 as <-.
  pose proof (load_inv size hole fresh weighted F o Hhole W L1) as I. rewrite <- Hd in I.
  destruct (before_save_inv size fresh weighted (main d) _ o I) as (o2 & L & I2 & Y & Ne & Hh & Km).
  cbn [map Datatypes.app StoreModel.run] in R1. rewrite (save_done size d o o2 L) in R1. injection R1 as _ <- <-. cbn [main] in M1. injection M1 as <-.
  assert (Gk : gett o2 k = Some hole) by (rewrite Ne by assumption; apply G1; exists a; assumption).
  destruct (S2 k a S1) as (_ & S3). specialize (S3 Nk ltac:(intros [])). apply read_stored in S3; [|apply W1].
  exists o. eexists _, _. rewrite Hd. split; [assumption|]. cbn [StoreModel.run]. rewrite (save_done size d o o2 L). cbn [main].
  destruct k as [e i l|p e i|dd e i]; try contradiction Nk. cbn [access]. unfold get_derived, really_load. rewrite Gk.
  destruct (Nat.ltb_spec 1 (size hole)); [lia|]. rewrite S3. cbn [upd cache]. rewrite get_set.
  destruct (key_dec (KDerived dd e i) (KDerived dd e i)); [|contradiction]. reflexivity.
Qed.
End Proofs.

(** ** Small arrays *)
Lemma C18_small_aux : forall (A H : Type) (size : A -> nat) (d : disk A H) (o : obj A H) k a, one_each o -> cached o k a -> (size a <= 1)%nat ->
  (forall e i, k <> KDerived Velocity e i) -> ~ neglected k -> main d = Absent -> save size d o = Err IOError.
Proof.
  intros A H size d o k a N C S1 Nv Nn Hd. unfold save. rewrite Hd.
  assert (Ld : forall ks (o : obj A H), (forall k', In k' ks -> get key_dec (cache o) k' <> None) ->
    (load_keys size Absent ks o = (o, None) /\ forall k' a', In k' ks -> get key_dec (cache o) k' = Some a' -> (1 < size a')%nat) \/
    (load_keys size Absent ks o = (o, Some IOError))).
  { induction ks as [|k0 ks IH]; intros o0 Hk; [left; split; [reflexivity|intros ? ? []]|]. cbn [load_keys]. unfold really_load.
    destruct (get key_dec (cache o0) k0) as [a0|] eqn:G; [|exfalso; apply (Hk k0 (or_introl eq_refl)); assumption].
    destruct (Nat.ltb_spec 1 (size a0)); [|right; reflexivity].
    destruct (IH o0 ltac:(intros; apply Hk; right; assumption)) as [(E & S2)|E]; [left|right; assumption].
    split; [assumption|]. intros k' a' [<-|I'] G'; [congruence|eauto]. }
  assert (La : forall g, (load_all size Absent g o = (o, None) /\ (in_group g k = true -> False)) \/ load_all size Absent g o = (o, Some IOError)).
  { intros g. unfold load_all. destruct (Ld (filter (in_group g) (map fst (cache o))) o) as [(E & S2)|E]; [|left; split; [assumption|]|right; assumption].
    - intros k' I'. apply filter_In in I'. intros C'. apply get_None in C'. tauto.
    - intros Hg. specialize (S2 k a). assert (1 < size a)%nat; [|lia]. apply S2; [|apply In_get; assumption]. apply filter_In. split; [|assumption].
      apply (in_map fst) in C. assumption. }
  unfold load_before_save.
  destruct (La (GPlain TauObs)) as [(E1 & H1)|E1]; rewrite E1; [|reflexivity].
  destruct (La GTau) as [(E2 & H2)|E2]; rewrite E2; [|reflexivity].
  destruct (La (GPlain ColDen)) as [(E3 & H3)|E3]; rewrite E3; [|reflexivity].
  exfalso. destruct k as [e i l|[] e i|[] e i]; cbn in *; auto. apply (Nv e i). reflexivity.
Qed.

Lemma C21_small_aux : forall (A H : Type) (size : A -> nat) (fresh : key -> A) weighted (h : H) (b : fstate A H) k, (forall d e i, k <> KDerived d e i) -> (size (fresh k) <= 1)%nat ->
  run size fresh weighted [Get false k; Get false k] {| main := Absent; backup := b |} {| hdr := h; cache := [] |} = Err IOError.
Proof.
  intros A H size fresh weighted h b k Hk S1.
  assert (Ac : forall o : obj A H, access size fresh weighted Absent false k o = get_plain size fresh Absent false k o) by (intros o; destruct k; try reflexivity; exfalso; eapply Hk; reflexivity).
  cbn [run main]. rewrite Ac. unfold get_plain at 1, really_load. cbn [cache get upd set]. rewrite Ac. unfold get_plain, really_load. cbn [cache get upd set hdr].
  destruct (key_dec k k); [|contradiction]. destruct (Nat.ltb_spec 1 (size (fresh k))); [lia|]. reflexivity.
Qed.

(** ** C20 *)
Section Crash.
Context {A H : Type}.
Local Notation disk := (disk A H).
Local Notation file := (file A H).

Lemma C20_crash_aux : forall (size : A -> nat) (d : disk) (o : obj A H) F, main d = Good F ->
  forall o' d', save size d o = Ok (o', d') ->
  (exists F', save_states F' d = [d; moved d; {| main := Torn; backup := backup (moved d) |}; d']) /\
  forall F' s, In s (save_states F' d) -> recoverable s F.
Proof.
  intros size d o F Hd o' d' Sv. split.
  - unfold save in Sv. destruct (load_before_save size (main d) o) as [o1|]; [|discriminate]. injection Sv as <- <-. exists (contents o1). reflexivity.
  - intros F' s I. unfold save_states, moved in I. rewrite Hd in I. cbn [main backup] in I. unfold recoverable.
    destruct I as [<-|[<-|[<-|[<-|[]]]]]; [left; assumption|right; reflexivity|right; reflexivity|right; reflexivity].
Qed.

Definition crash (e : event A H) : Prop := match e with Crashed _ _ => True | Completed _ => False end.

(** Classes of disk states after crashes only. *)
Inductive phase := Clean | Halfway | Exposed | Lost.
Definition in_phase (F : file) (p : phase) (d : disk) : Prop :=
  match p with
  | Clean => main d = Good F
  | Halfway => main d = Absent /\ backup d = Good F
  | Exposed => main d = Torn /\ backup d = Good F
  | Lost => (main d = Absent \/ main d = Torn) /\ backup d = Torn
  end.
Definition next (p : phase) (pt : point) : phase :=
  match pt, p with
  | BeforeMove, _ => p
  | AfterMove, Clean | AfterMove, Halfway => Halfway
  | Writing, Clean | Writing, Halfway => Exposed
  | _, _ => Lost
  end.

Lemma next_phase : forall F p d F' pt, in_phase F p d -> in_phase F (next p pt) (after (Crashed F' pt) d).
Proof.
  intros F p d F' pt I. destruct pt; cbn [after nth save_states]; [assumption| |]; unfold moved; destruct p; cbn [in_phase next] in *;
    try (rewrite I; cbn [main backup]; auto; fail); destruct I as (I1 & I2); try (rewrite I1; cbn [main backup]; auto; fail).
  - destruct I1 as [E|E]; rewrite E; cbn [main backup]; auto.
  - destruct I1 as [E|E]; rewrite E; cbn [main backup]; auto.
Qed.

Definition doomed (es : list (event A H)) : Prop :=
  exists es1 F1 es2 F2 p es3, es = es1 ++ Crashed F1 Writing :: es2 ++ Crashed F2 p :: es3 /\ p <> BeforeMove.

Definition run_phase (p : phase) (es : list (event A H)) : phase :=
  fold_left (fun p e => match e with Crashed _ pt => next p pt | Completed _ => Clean end) es p.

Lemma phase_history : forall F es p d, Forall crash es -> in_phase F p d -> in_phase F (run_phase p es) (history es d).
Proof.
  induction es as [|[F'|F' pt] es IH]; intros p d Fc I; [assumption|inversion Fc; contradiction|]. cbn [history run_phase fold_left]. apply IH; [inversion Fc; assumption|].
  apply next_phase. assumption.
Qed.

Lemma lost_stays : forall es, Forall crash es -> run_phase Lost es = Lost.
Proof.
  induction es as [|[F'|F' pt] es IH]; intros Fc; [reflexivity|inversion Fc; contradiction|]. cbn [run_phase fold_left]. destruct pt; cbn [next]; apply IH; inversion Fc; assumption.
Qed.

Lemma exposed_lost : forall es, Forall crash es -> (run_phase Exposed es = Lost <-> exists es2 F2 p es3, es = es2 ++ Crashed F2 p :: es3 /\ p <> BeforeMove) /\ (run_phase Exposed es = Lost \/ run_phase Exposed es = Exposed).
Proof.
  induction es as [|[F'|F' pt] es IH]; intros Fc; [|inversion Fc; contradiction|].
  - split; [|right; reflexivity]. split; [discriminate|]. intros (es2 & F2 & p & es3 & C & _). destruct es2; discriminate.
  - inversion Fc as [|x l H1 H2]; subst. destruct (IH H2) as (IH1 & IH2). cbn [run_phase fold_left]. destruct pt; cbn [next].
    + split; [|assumption]. fold (run_phase Exposed es). rewrite IH1. split.
      * intros (es2 & F2 & p & es3 & -> & Np). exists (Crashed F' BeforeMove :: es2), F2, p, es3. split; [reflexivity|assumption].
      * intros (es2 & F2 & p & es3 & E & Np). destruct es2 as [|e es2]; [injection E as -> <- _; contradiction Np; reflexivity|].
        injection E as _ ->. exists es2, F2, p, es3. split; [reflexivity|assumption].
    + pose proof (lost_stays es H2) as Ls. unfold run_phase in Ls. rewrite Ls. split; [|left; reflexivity]. split; [|reflexivity]. intros _. exists [], F', AfterMove, es. split; [reflexivity|discriminate].
    + pose proof (lost_stays es H2) as Ls. unfold run_phase in Ls. rewrite Ls. split; [|left; reflexivity]. split; [|reflexivity]. intros _. exists [], F', Writing, es. split; [reflexivity|discriminate].
Qed.

Lemma phases_doomed : forall es p, p = Clean \/ p = Halfway -> Forall crash es -> (run_phase p es = Lost <-> doomed es).
Proof.
  induction es as [|[F'|F' pt] es IH]; intros p Hp Fc; [|inversion Fc; contradiction|].
  - cbn. split; [intros ->; destruct Hp; discriminate|]. intros (es1 & F1 & es2 & F2 & q & es3 & C & _). destruct es1; discriminate.
  - inversion Fc as [|x l H1 H2]; subst. cbn [run_phase fold_left].
    assert (Sk : pt <> Writing -> (doomed (Crashed F' pt :: es) <-> doomed es)).
    { intros Nw. split.
      - intros (es1 & F1 & es2 & F2 & q & es3 & E & Nq). destruct es1 as [|e es1]; [injection E as _ C _; congruence|]. injection E as _ ->.
        exists es1, F1, es2, F2, q, es3. split; [reflexivity|assumption].
      - intros (es1 & F1 & es2 & F2 & q & es3 & -> & Nq). exists (Crashed F' pt :: es1), F1, es2, F2, q, es3. split; [reflexivity|assumption]. }
    destruct pt.
    + rewrite Sk by discriminate. apply IH; [assumption|assumption].
    + rewrite Sk by discriminate. apply IH; [destruct Hp as [->| ->]; right; reflexivity|assumption].
    + assert (En : next p Writing = Exposed) by (destruct Hp as [->| ->]; reflexivity). rewrite En. destruct (exposed_lost es H2) as (X & _). unfold run_phase in X. rewrite X. split.
      * intros (es2 & F2 & q & es3 & -> & Nq). exists [], F', es2, F2, q, es3. split; [reflexivity|assumption].
      * intros (es1 & F1 & es2 & F2 & q & es3 & E & Nq). destruct es1 as [|e es1].
        -- injection E as _ ->. exists es2, F2, q, es3. split; [reflexivity|assumption].
        -- injection E as _ ->. exists (es1 ++ Crashed F1 Writing :: es2), F2, q, es3. split; [rewrite <- app_assoc; reflexivity|assumption].
Qed.

Lemma C20_history_aux : forall (d : disk) es0 F es, Forall crash es ->
  (recoverable (history (es0 ++ Completed F :: es) d) F <-> ~ doomed es).
Proof.
  intros d es0 F es Fc. unfold history. rewrite fold_left_app. cbn [fold_left]. set (d1 := after (Completed F) _).
  assert (M : main d1 = Good F) by reflexivity. fold (history es d1).
  pose proof (phase_history F es Clean d1 Fc M) as I. rewrite <- (phases_doomed es Clean (or_introl eq_refl) Fc).
  destruct (run_phase Clean es); cbn [in_phase] in I; unfold recoverable.
  - split; [discriminate|left; assumption].
  - destruct I. split; [discriminate|right; assumption].
  - destruct I. split; [discriminate|right; assumption].
  - destruct I as ([E|E] & B); rewrite E, B; split; try (intros [C|C]; discriminate); intros C; contradiction C; reflexivity.
Qed.
End Crash.

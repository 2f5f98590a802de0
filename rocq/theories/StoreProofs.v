(** Proofs about the cache and the save file. *)
From Coq Require Import ZArith List String Bool Lia Arith DecimalString Decimal DecimalZ DecimalFacts.
From Verif Require Import StoreModel StoreSpec.
From Coq Require DecimalPos.
Import ListNotations.
Local Open Scope Z_scope.

(** ** Dictionaries *)
Section Dict.
Context {K V : Type} (dec : forall x y : K, {x = y} + {x <> y}).

Lemma get_set : forall (d : list (K * V)) k v k', get dec (set dec d k v) k' = if dec k' k then Some v else get dec d k'.
Proof.
  induction d as [|(k0, v0) d IH]; intros k v k'; [reflexivity|]. cbn [set]. destruct (dec k k0) as [->|N]; cbn [get].
  - destruct (dec k' k0); reflexivity.
  - rewrite IH. destruct (dec k' k0) as [->|]; [|reflexivity]. destruct (dec k0 k) as [->|]; [contradiction|reflexivity].
Qed.

Lemma get_In : forall (d : list (K * V)) k v, get dec d k = Some v -> In (k, v) d.
Proof.
  induction d as [|(k0, v0) d IH]; intros k v G; [discriminate|]. cbn [get] in G. destruct (dec k k0) as [->|].
  - injection G as <-. left. reflexivity.
  - right. apply IH. assumption.
Qed.

Lemma In_get : forall (d : list (K * V)) k v, NoDup (map fst d) -> In (k, v) d -> get dec d k = Some v.
Proof.
  induction d as [|(k0, v0) d IH]; intros k v N I; [contradiction|]. cbn [map fst] in N. apply NoDup_cons_iff in N. destruct N as (N1 & N2).
  cbn [get]. destruct I as [I|I].
  - injection I as -> ->. destruct (dec k k); [reflexivity|contradiction].
  - destruct (dec k k0) as [->|]; [|apply IH; assumption]. exfalso. apply N1. apply (in_map fst) in I. assumption.
Qed.

Lemma get_None : forall (d : list (K * V)) k, get dec d k = None <-> ~ In k (map fst d).
Proof.
  induction d as [|(k0, v0) d IH]; intros k; [split; [intros _ []|reflexivity]|]. cbn [get map fst]. destruct (dec k k0) as [->|N].
  - split; [discriminate|]. intros C. exfalso. apply C. left. reflexivity.
  - rewrite IH. split; intros C; [intros [E|I]; [congruence|contradiction]|]. intros I. apply C. right. assumption.
Qed.

Lemma set_keys : forall (d : list (K * V)) k v, get dec d k <> None -> map fst (set dec d k v) = map fst d.
Proof.
  induction d as [|(k0, v0) d IH]; intros k v G; [contradiction G; reflexivity|]. cbn [set]. cbn [get] in G. destruct (dec k k0) as [->|]; cbn [map fst]; [reflexivity|].
  f_equal. apply IH. assumption.
Qed.

Lemma set_keys_new : forall (d : list (K * V)) k v, get dec d k = None -> map fst (set dec d k v) = map fst d ++ [k].
Proof.
  induction d as [|(k0, v0) d IH]; intros k v G; [reflexivity|]. cbn [set]. cbn [get] in G. destruct (dec k k0) as [->|]; [discriminate|]. cbn [map fst Datatypes.app].
  f_equal. apply IH. assumption.
Qed.

Lemma NoDup_snoc : forall (l : list K) x, NoDup l -> ~ In x l -> NoDup (l ++ [x]).
Proof.
  induction l as [|y l IH]; intros x N I; [repeat constructor; intros []|]. apply NoDup_cons_iff in N. destruct N as (N1 & N2). cbn. constructor.
  - intros C. apply in_app_or in C. destruct C as [C|[<-|[]]]; [contradiction|]. apply I. left. reflexivity.
  - apply IH; [assumption|]. intros C. apply I. right. assumption.
Qed.

Lemma set_NoDup : forall (d : list (K * V)) k v, NoDup (map fst d) -> NoDup (map fst (set dec d k v)).
Proof.
  intros d k v N. destruct (get dec d k) eqn:G.
  - rewrite set_keys by congruence. assumption.
  - rewrite set_keys_new by assumption. apply NoDup_snoc; [assumption|]. apply get_None. assumption.
Qed.
End Dict.

(** ** Names *)
Lemma int_str : forall n, int (str n) = Some n.
Proof.
  intros n. unfold int, str. rewrite NilZero.isi.
  - cbn [option_map]. rewrite DecimalZ.of_to. reflexivity.
  - destruct n as [|p|p]; cbn; try discriminate. intros C. injection C as C. apply (DecimalPos.Unsigned.to_uint_nonnil _ C).
  - destruct n as [|p|p]; cbn; try discriminate. intros C. injection C as C. apply (DecimalPos.Unsigned.to_uint_nonnil _ C).
Qed.

Lemma str_inj : forall n m, str n = str m -> n = m.
Proof. intros n m E. apply (f_equal int) in E. rewrite !int_str in E. injection E as ->. reflexivity. Qed.

Lemma path_inj : forall k k', path k = path k' -> k = k'.
Proof.
  intros k k' E. destruct k, k'; cbn [path] in E; try discriminate; injection E; intros; subst; f_equal; apply str_inj; assumption.
Qed.

Lemma key_of_path : forall k, in_range k -> key_of (path k) = Some k.
Proof.
  intros [e i l|p e i|d e i] R; cbn [path key_of]; rewrite ?int_str; try reflexivity.
  unfold float_of. cbn in R. destruct (Z.leb_spec (Z.abs l) (2 ^ 53)); [reflexivity|]. lia.
Qed.

Section Proofs.
Context {A H : Type} (size : A -> nat) (hole : A).
Variable fresh : key -> A.
Variable weighted : key -> A -> A.
Hypothesis Hlarge : large size fresh weighted.

Local Notation obj := (obj A H).
Local Notation file := (file A H).
Local Notation fstate := (fstate A H).
Local Notation gett o k := (get key_dec (cache o) k).

Lemma get_cached : forall (o : obj) k a, one_each o -> (cached o k a <-> gett o k = Some a).
Proof. intros o k a N. split; [apply In_get; assumption|apply get_In]. Qed.

(** ** Expected answers *)
Definition comp (E : key -> A) (k : key) : A :=
  match k with KDerived _ e i => weighted k (E (KPlain ColDen e i)) | _ => fresh k end.

Record Inv (f : fstate) (E : key -> A) (o : obj) : Prop := {
  inv_once : one_each o;
  inv_known : forall k a, gett o k = Some a -> (1 < size a)%nat /\ a = E k \/ (size a <= 1)%nat /\ read f k = Ok (E k);
  inv_new : forall k, gett o k = None -> E k = comp E k }.

Lemma really_load_inv : forall f E o k, Inv f E o -> gett o k <> None ->
  exists o', really_load size f k o = Ok o' /\ Inv f E o' /\ gett o' k = Some (E k) /\
    (forall k', k' <> k -> gett o' k' = gett o k') /\ hdr o' = hdr o /\ map fst (cache o') = map fst (cache o).
Proof.
  intros f E o k I G. unfold really_load. destruct (gett o k) as [a|] eqn:Ga; [|congruence]. clear G.
  destruct (inv_known _ _ _ I k a Ga) as [(S1 & ->)|(S1 & R)].
  - destruct (Nat.ltb_spec 1 (size (E k))); [|lia]. exists o. repeat split; try assumption; try apply I.
  - destruct (Nat.ltb_spec 1 (size a)); [lia|]. rewrite R. exists (upd o k (E k)). split; [reflexivity|].
    assert (Hk : map fst (cache (upd o k (E k))) = map fst (cache o)) by (apply set_keys; congruence).
    assert (Gk : forall k', gett (upd o k (E k)) k' = if key_dec k' k then Some (E k) else gett o k') by (intros; apply get_set).
    split; [constructor|].
    + unfold one_each. rewrite Hk. apply I.
    + intros k' a' G'. rewrite Gk in G'. destruct (key_dec k' k) as [->|]; [|apply I; assumption]. injection G' as <-.
      destruct (Nat.lt_ge_cases 1 (size (E k))); [left; split; [assumption|reflexivity]|right; split; [assumption|assumption]].
    + intros k' G'. rewrite Gk in G'. destruct (key_dec k' k); [discriminate|apply I; assumption].
    + split; [rewrite Gk; destruct (key_dec k k); [reflexivity|contradiction]|].
      split; [|split; [reflexivity|assumption]]. intros k' N. rewrite Gk. destruct (key_dec k' k); [contradiction|reflexivity].
Qed.

(** Adding a computed array. *)
Lemma upd_inv : forall f E o k, Inv f E o -> (1 < size (E k))%nat -> Inv f E (upd o k (E k)).
Proof.
  intros f E o k I S1. assert (Gk : forall k', gett (upd o k (E k)) k' = if key_dec k' k then Some (E k) else gett o k') by (intros; apply get_set).
  constructor.
  - apply set_NoDup. apply I.
  - intros k' a' G'. rewrite Gk in G'. destruct (key_dec k' k) as [->|]; [|apply I; assumption]. injection G' as <-. left. split; [assumption|reflexivity].
  - intros k' G'. rewrite Gk in G'. destruct (key_dec k' k); [discriminate|apply I; assumption].
Qed.

Lemma large_comp : forall E k, E k = comp E k -> (1 < size (E k))%nat.
Proof. intros E k ->. destruct Hlarge as (L1 & L2). destruct k; cbn; auto. Qed.

Definition is_derived (k : key) : Prop := match k with KDerived _ _ _ => True | _ => False end.
Lemma neglected_derived : forall k, neglected k -> is_derived k.
Proof. intros [e i l|p e i|d e i] N; cbn in *; try contradiction; exact Logic.I. Qed.

(** What an access does to the object. *)
Record Step (E : key -> A) (k : key) (o o' : obj) : Prop := {
  st_now : gett o' k = Some (E k);
  st_keep : forall k', gett o k' <> None -> gett o' k' <> None;
  st_mono : forall k', gett o k' = Some (E k') -> gett o' k' = Some (E k');
  st_negl : forall k', k' <> k -> is_derived k' -> gett o' k' = gett o k';
  st_range : forall k', in_range k -> gett o' k' <> None -> gett o k' <> None \/ in_range k';
  st_hdr : hdr o' = hdr o }.

Lemma step_set : forall E k (o : obj), Step E k o (upd o k (E k)).
Proof.
  intros E k o. assert (Gk : forall k', gett (upd o k (E k)) k' = if key_dec k' k then Some (E k) else gett o k') by (intros; apply get_set).
  constructor.
  - rewrite Gk. destruct (key_dec k k); [reflexivity|contradiction].
  - intros k' G. rewrite Gk. destruct (key_dec k' k); [discriminate|assumption].
  - intros k' G. rewrite Gk. destruct (key_dec k' k) as [->|]; [reflexivity|assumption].
  - intros k' N _. rewrite Gk. destruct (key_dec k' k); [contradiction|reflexivity].
  - intros k' R G. rewrite Gk in G. destruct (key_dec k' k) as [->|]; [right; assumption|left; assumption].
  - reflexivity.
Qed.

Lemma step_load : forall E k (o o' : obj), gett o' k = Some (E k) -> gett o k <> None -> (forall k', k' <> k -> gett o' k' = gett o k') -> hdr o' = hdr o -> Step E k o o'.
Proof.
  intros E k o o' G Gn G' Hh. constructor.
  - assumption.
  - intros k' N. destruct (key_dec k' k) as [->|D]; [congruence|]. rewrite G' by assumption. assumption.
  - intros k' N. destruct (key_dec k' k) as [->|D]; [assumption|]. rewrite G' by assumption. assumption.
  - intros k' D _. apply G'. assumption.
  - intros k' R N. left. destruct (key_dec k' k) as [->|D]; [assumption|]. rewrite G' in N by assumption. assumption.
  - assumption.
Qed.

Lemma really_load_none : forall f (o : obj) k, gett o k = None -> really_load size f k o = Err KeyError.
Proof. intros f o k G. unfold really_load. rewrite G. reflexivity. Qed.

Lemma plain_inv : forall f E o k force, (forall d e i, k <> KDerived d e i) -> Inv f E o -> (force = true -> E k = comp E k) ->
  exists o', get_plain size fresh f force k o = Ok (E k, o') /\ Inv f E o' /\ Step E k o o'.
Proof.
  intros f E o k force Hk I Hf.
  assert (Comp : E k = comp E k -> E k = fresh k) by (intros E1; rewrite E1; destruct k; try reflexivity; exfalso; eapply Hk; reflexivity).
  unfold get_plain. destruct force.
  - specialize (Hf eq_refl). exists (upd o k (E k)). rewrite <- (Comp Hf). split; [reflexivity|]. split; [apply upd_inv; [assumption|apply large_comp; assumption]|apply step_set].
  - destruct (gett o k) as [a|] eqn:G.
    + destruct (really_load_inv f E o k I ltac:(congruence)) as (o' & R & I' & G' & Go & Hh & _). rewrite R, G'. exists o'. split; [reflexivity|].
      split; [assumption|]. apply step_load; try assumption. congruence.
    + rewrite really_load_none by assumption. pose proof (inv_new _ _ _ I k G) as E1. exists (upd o k (E k)). rewrite <- (Comp E1). split; [reflexivity|].
      split; [apply upd_inv; [assumption|apply large_comp; assumption]|apply step_set].
Qed.

Lemma access_inv : forall f E o k force, Inv f E o -> (force = true -> E k = comp E k) ->
  exists o', access size fresh weighted f force k o = Ok (E k, o') /\ Inv f E o' /\ Step E k o o'.
Proof.
  intros f E o k force I Hf. destruct k as [e i l|p e i|d e i].
  - apply plain_inv; [discriminate|assumption|assumption].
  - apply plain_inv; [discriminate|assumption|assumption].
  - cbn [access]. unfold get_derived. set (k := KDerived d e i) in *. destruct (gett o k) as [a|] eqn:G.
    + destruct (really_load_inv f E o k I ltac:(congruence)) as (o' & R & I' & G' & Go & Hh & _). rewrite R, G'. exists o'. split; [reflexivity|].
      split; [assumption|]. apply step_load; try assumption. congruence.
    + rewrite really_load_none by assumption.
      destruct (plain_inv f E o (KPlain ColDen e i) false ltac:(discriminate) I ltac:(discriminate)) as (o1 & R & I1 & S1). rewrite R.
      pose proof (inv_new _ _ _ I k G) as E1. assert (E2 : weighted k (E (KPlain ColDen e i)) = E k) by (rewrite E1; reflexivity). rewrite E2.
      exists (upd o1 k (E k)). split; [reflexivity|]. split; [apply upd_inv; [assumption|apply large_comp; assumption]|].
      assert (Gk : forall k', gett (upd o1 k (E k)) k' = if key_dec k' k then Some (E k) else gett o1 k') by (intros; apply get_set).
      constructor.
      * rewrite Gk. destruct (key_dec k k); [reflexivity|contradiction].
      * intros k' N. rewrite Gk. destruct (key_dec k' k); [discriminate|apply (st_keep _ _ _ _ S1); assumption].
      * intros k' N. rewrite Gk. destruct (key_dec k' k) as [->|]; [reflexivity|apply (st_mono _ _ _ _ S1); assumption].
      * intros k' N Ne. rewrite Gk. destruct (key_dec k' k) as [->|]; [contradiction|]. apply (st_negl _ _ _ _ S1); [|assumption]. intros ->. exact Ne.
      * intros k' R1 N. rewrite Gk in N. destruct (key_dec k' k) as [->|]; [right; assumption|]. apply (st_range _ _ _ _ S1); [exact Logic.I|assumption].
      * apply (st_hdr _ _ _ _ S1).
Qed.

(** ** Saving *)
Lemma load_keys_inv : forall f E ks o, Inv f E o -> (forall k, In k ks -> gett o k <> None) ->
  exists o', load_keys size f ks o = (o', None) /\ Inv f E o' /\ (forall k, In k ks -> gett o' k = Some (E k)) /\
    (forall k, ~ In k ks -> gett o' k = gett o k) /\ (forall k, gett o k = Some (E k) -> gett o' k = Some (E k)) /\
    hdr o' = hdr o /\ map fst (cache o') = map fst (cache o).
Proof.
  intros f E. induction ks as [|k ks IH]; intros o I N.
  - exists o. repeat split; try reflexivity; try apply I; try contradiction; try (intros; assumption).
  - destruct (really_load_inv f E o k I (N k (or_introl eq_refl))) as (o1 & R & I1 & G1 & Go & Hh & Hm). cbn [load_keys]. rewrite R.
    destruct (IH o1 I1) as (o' & L & I' & Gin & Gout & Gm & Hh' & Hm').
    { intros k' K'. destruct (key_dec k' k) as [->|D]; [congruence|]. rewrite Go by assumption. apply N. right. assumption. }
    assert (Gk : gett o' k = Some (E k)) by (apply Gm; assumption).
    exists o'. split; [assumption|]. split; [assumption|]. split.
    { intros k' [<-|K']; [assumption|apply Gin; assumption]. }
    split. { intros k' K'. rewrite Gout by (intros C; apply K'; right; assumption). apply Go. intros ->. apply K'. left. reflexivity. }
    split. { intros k' K'. destruct (key_dec k' k) as [->|D]; [assumption|]. apply Gm. rewrite Go by assumption. assumption. }
    split; congruence.
Qed.

Lemma load_all_inv : forall f E g o, Inv f E o ->
  exists o', load_all size f g o = (o', None) /\ Inv f E o' /\ (forall k, in_group g k = true -> gett o k <> None -> gett o' k = Some (E k)) /\
    (forall k, in_group g k = false -> gett o' k = gett o k) /\ (forall k, gett o k = Some (E k) -> gett o' k = Some (E k)) /\
    hdr o' = hdr o /\ map fst (cache o') = map fst (cache o).
Proof.
  intros f E g o I. unfold load_all.
  destruct (load_keys_inv f E (filter (in_group g) (map fst (cache o))) o I) as (o' & L & I' & Gin & Gout & Gm & Hh & Hm).
  { intros k K. apply filter_In in K. intros C. apply get_None in C. tauto. }
  exists o'. split; [assumption|]. split; [assumption|]. split.
  { intros k K N. apply Gin. apply filter_In. split; [|assumption]. destruct (in_dec key_dec k (map fst (cache o))) as [|C]; [assumption|].
    exfalso. apply N. apply get_None. assumption. }
  split; [|repeat split; assumption]. intros k K. apply Gout. intros C. apply filter_In in C. destruct C. congruence.
Qed.

Definition keys_same (o o' : obj) : Prop := forall k, gett o k = None <-> gett o' k = None.

Lemma keys_eq_same : forall o o' : obj, map fst (cache o') = map fst (cache o) -> forall k, gett o k = None <-> gett o' k = None.
Proof. intros o o' E k. rewrite !get_None, E. reflexivity. Qed.

Lemma before_save_inv : forall f E o, Inv f E o ->
  exists o', load_before_save size f o = Ok o' /\ Inv f E o' /\ (forall k, ~ neglected k -> gett o k <> None -> gett o' k = Some (E k)) /\
    (forall k, neglected k -> gett o' k = gett o k) /\ hdr o' = hdr o /\ map fst (cache o') = map fst (cache o).
Proof.
  intros f E o I. unfold load_before_save.
  destruct (load_all_inv f E (GPlain TauObs) o I) as (o1 & -> & I1 & Y1 & N1 & M1 & H1 & K1).
  destruct (load_all_inv f E GTau o1 I1) as (o2 & -> & I2 & Y2 & N2 & M2 & H2 & K2).
  destruct (load_all_inv f E (GPlain ColDen) o2 I2) as (o3 & -> & I3 & Y3 & N3 & M3 & H3 & K3).
  destruct (load_all_inv f E (GDerived Velocity) o3 I3) as (o4 & -> & I4 & Y4 & N4 & M4 & H4 & K4).
  exists o4. split; [reflexivity|]. split; [assumption|]. split; [|split; [|split; congruence]].
  - intros k Nk Gk.
    assert (G1 : gett o1 k <> None) by (intros C; apply Gk; apply (keys_eq_same o o1 K1); assumption).
    assert (G2 : gett o2 k <> None) by (intros C; apply G1; apply (keys_eq_same o1 o2 K2); assumption).
    assert (G3 : gett o3 k <> None) by (intros C; apply G2; apply (keys_eq_same o2 o3 K3); assumption).
    destruct k as [e i l|p e i|d e i].
    + apply M4, M3, Y2; [reflexivity|assumption].
    + destruct p; [apply M4, M3, M2, Y1; [reflexivity|assumption]|apply M4, Y3; [reflexivity|assumption]].
    + destruct d; [apply Y4; [reflexivity|assumption]|contradiction Nk; exact Logic.I|contradiction Nk; exact Logic.I].
  - intros k Nk. assert (F : forall g, (g = GTau \/ g = GPlain TauObs \/ g = GPlain ColDen \/ g = GDerived Velocity) -> in_group g k = false).
    { intros g Hg. destruct k as [e i l|p e i|d e i]; try contradiction Nk. destruct d; try contradiction Nk; destruct Hg as [->|[->|[->| ->]]]; reflexivity. }
    rewrite N4, N3, N2, N1; auto.
Qed.

(** ** Files *)
Lemma read_stored : forall (F : file) k a, NoDup (map fst (f_data F)) -> (read (Good F) k = Ok a <-> stored F k a).
Proof.
  intros F k a N. unfold read, stored. destruct (present F (fst (path k))); [|split; [discriminate|intros (C & _); discriminate]].
  destruct (get path_dec (f_data F) (path k)) as [b|] eqn:G.
  - split; [intros E; injection E as ->; split; [reflexivity|apply get_In in G; assumption]|]. intros (_ & I).
    apply (In_get path_dec) in I; [|assumption]. rewrite I in G. injection G as ->. reflexivity.
  - split; [discriminate|]. intros (_ & I). apply (In_get path_dec) in I; [|assumption]. congruence.
Qed.

Lemma contents_fold : forall (l : list (key * A)) acc, NoDup (map fst l) ->
  (forall k, get path_dec (fold_left (fun d ka => set path_dec d (path (fst ka)) (snd ka)) l acc) (path k) =
    match get key_dec l k with Some a => Some a | None => get path_dec acc (path k) end).
Proof.
  induction l as [|(k0, a0) l IH]; intros acc N k; [reflexivity|]. cbn [map fst] in N. apply NoDup_cons_iff in N. destruct N as (N1 & N2).
  cbn [fold_left get fst snd]. rewrite IH by assumption. rewrite get_set. destruct (key_dec k k0) as [->|D].
  - assert (G : get key_dec l k0 = None) by (apply get_None; assumption). rewrite G.
    destruct (path_dec (path k0) (path k0)); [reflexivity|contradiction].
  - destruct (get key_dec l k); [reflexivity|]. destruct (path_dec (path k) (path k0)) as [E|]; [|reflexivity]. apply path_inj in E. contradiction.
Qed.

Lemma contents_NoDup : forall (l : list (key * A)) acc, NoDup (map fst acc) ->
  NoDup (map fst (fold_left (fun d ka => set path_dec d (path (fst ka)) (snd ka)) l acc)).
Proof. induction l as [|(k0, a0) l IH]; intros acc N; [assumption|]. cbn [fold_left fst snd]. apply IH. apply set_NoDup. assumption. Qed.

Lemma contents_names : forall (l : list (key * A)) acc p, In p (map fst (fold_left (fun d ka => set path_dec d (path (fst ka)) (snd ka)) l acc)) ->
  In p (map fst acc) \/ exists k, In k (map fst l) /\ p = path k.
Proof.
  induction l as [|(k0, a0) l IH]; intros acc p I; [left; assumption|]. cbn [fold_left fst snd] in I. apply IH in I.
  destruct I as [I|(k & I & ->)]; [|right; exists k; split; [right; assumption|reflexivity]].
  destruct (get path_dec acc (path k0)) eqn:G.
  - rewrite set_keys in I by congruence. left. assumption.
  - rewrite set_keys_new in I by assumption. apply in_app_or in I. destruct I as [I|[<-|[]]]; [left; assumption|].
    right. exists k0. split; [left; reflexivity|reflexivity].
Qed.

Lemma contents_stored : forall (o : obj) k a, one_each o -> (stored (contents o) k a <-> gett o k = Some a).
Proof.
  intros o k a N. unfold stored, contents. cbn [present f_data]. split.
  - intros (_ & I). apply (In_get path_dec) in I; [|apply contents_NoDup; constructor]. rewrite contents_fold in I by assumption.
    destruct (gett o k); [assumption|discriminate].
  - intros G. split; [reflexivity|]. apply (get_In path_dec). rewrite contents_fold by assumption. rewrite G. reflexivity.
Qed.

Lemma contents_written : forall o : obj, one_each o -> (forall k, gett o k <> None -> in_range k) -> written (contents o).
Proof.
  intros o N R. unfold written, contents. cbn [present f_data]. split; [apply contents_NoDup; constructor|]. split; [|auto].
  intros p a I. apply (in_map fst) in I. cbn [fst] in I. apply contents_names in I. destruct I as [[]|(k & I & ->)].
  exists k. split; [|reflexivity]. apply R. intros C. apply get_None in C. contradiction.
Qed.

(** ** Loading *)
Lemma load_names_spec : forall ps c, (forall p, In p ps -> exists k, in_range k /\ p = path k) -> NoDup (map fst c) ->
  exists c', load_names hole ps c = Some c' /\ NoDup (map fst c') /\
    forall k, get key_dec c' k = if in_dec path_dec (path k) ps then Some hole else get key_dec c k.
Proof.
  induction ps as [|p ps IH]; intros c Hp N.
  - exists c. split; [reflexivity|]. split; [assumption|]. intros k. destruct (in_dec path_dec (path k) []) as [[]|]; reflexivity.
  - destruct (Hp p (or_introl eq_refl)) as (k0 & R & ->). cbn [load_names]. rewrite key_of_path by assumption.
    destruct (IH (set key_dec c k0 hole)) as (c' & L & N' & G').
    { intros p I. apply Hp. right. assumption. }
    { apply set_NoDup. assumption. }
    exists c'. split; [assumption|]. split; [assumption|]. intros k. rewrite G', get_set.
    destruct (in_dec path_dec (path k) ps) as [I|I]; destruct (in_dec path_dec (path k) (path k0 :: ps)) as [I'|I']; try reflexivity.
    + exfalso. apply I'. right. assumption.
    + destruct I' as [E|C]; [|contradiction]. apply path_inj in E. subst k. destruct (key_dec k0 k0); [reflexivity|contradiction].
    + destruct (key_dec k k0) as [->|]; [|reflexivity]. exfalso. apply I'. left. reflexivity.
Qed.

Lemma load_written : forall F : file, written F ->
  exists o : obj, load hole (Good F) = Ok o /\ hdr o = f_hdr F /\ one_each o /\
    (forall k, gett o k <> None -> in_range k) /\
    (forall k, (exists a, stored F k a) -> gett o k = Some hole) /\ (forall k, (forall a, ~ stored F k a) -> gett o k = None).
Proof.
  intros F (N & Hp & P1 & P2 & P3). unfold load. rewrite P1, P2, P3. cbn [andb].
  set (ps := filter (fun p => present F (fst p)) (map fst (f_data F))).
  assert (Hps : forall p, In p ps -> exists k, in_range k /\ p = path k).
  { intros p I. apply filter_In in I. destruct I as (I & _). apply in_map_iff in I. destruct I as ((p', a) & <- & I). apply (Hp p' a I). }
  destruct (load_names_spec ps [] Hps ltac:(constructor)) as (c & L & N' & G). rewrite L. eexists. split; [reflexivity|].
  cbn [hdr cache]. split; [reflexivity|]. split; [assumption|].
  assert (Hin : forall k, In (path k) ps <-> exists a, stored F k a).
  { intros k. unfold ps. rewrite filter_In. unfold stored. split.
    - intros (I & P). apply in_map_iff in I. destruct I as ((p', a) & E & I). cbn in E. subst p'. exists a. split; assumption.
    - intros (a & P & I). split; [|assumption]. apply (in_map fst) in I. assumption. }
  split; [|split].
  - intros k. cbn [cache]. rewrite G. destruct (in_dec path_dec (path k) ps) as [I|]; [|intros C; contradiction C; reflexivity].
    intros _. destruct (Hps _ I) as (k' & R & E). apply path_inj in E. subst k'. assumption.
  - intros k S1. rewrite G. destruct (in_dec path_dec (path k) ps) as [|C]; [reflexivity|]. exfalso. apply C, Hin. assumption.
  - intros k S1. rewrite G. destruct (in_dec path_dec (path k) ps) as [C|]; [|reflexivity]. apply Hin in C. destruct C as (a & C). exfalso. apply (S1 a C).
Qed.

(** ** Answers *)
Definition answers_of (E : key -> A) (known : key -> A -> Prop) : Prop :=
  (forall k a, known k a -> E k = a) /\ (forall k, (forall a, ~ known k a) -> E k = comp E k).

Lemma answer_E : forall E (known : key -> A -> Prop), answers_of E known -> (forall k, (exists a, known k a) \/ (forall a, ~ known k a)) ->
  forall k, answer known fresh weighted k (E k).
Proof.
  intros E known (Hk & Hn) Hd. assert (Pl : forall p e i, answer known fresh weighted (KPlain p e i) (E (KPlain p e i))).
  { intros p e i. destruct (Hd (KPlain p e i)) as [(a & Ka)|N]; [rewrite (Hk _ _ Ka); constructor; assumption|]. rewrite (Hn _ N); cbn [comp]; apply answer_plain. assumption. }
  intros [e i l|p e i|d e i].
  - destruct (Hd (KTau e i l)) as [(a & Ka)|N]; [rewrite (Hk _ _ Ka); constructor; assumption|]. rewrite (Hn _ N); cbn [comp]; apply answer_tau. assumption.
  - apply Pl.
  - destruct (Hd (KDerived d e i)) as [(a & Ka)|N]; [rewrite (Hk _ _ Ka); constructor; assumption|]. rewrite (Hn _ N); cbn [comp]; apply answer_derived; [assumption|apply Pl].
Qed.

(** Expected answers for a partial function of known arrays. *)
Definition expect (known : key -> option A) (k : key) : A :=
  let ex k := match known k with Some a => a | None => fresh k end in
  match k with
  | KDerived _ e i => match known k with Some a => a | None => weighted k (ex (KPlain ColDen e i)) end
  | _ => ex k
  end.

Lemma expect_known : forall known k a, known k = Some a -> expect known k = a.
Proof. intros known k a E. destruct k; cbn; rewrite E; reflexivity. Qed.
Lemma expect_new : forall known k, known k = None -> expect known k = comp (expect known) k.
Proof. intros known k E. destruct k; cbn; rewrite E; reflexivity. Qed.

(** Histories of accesses. *)
Lemma run_gets : forall f E ks d (o : obj), main d = f -> Inv f E o ->
  exists o', run size fresh weighted (map (Get false) ks) d o = Ok (map E ks, d, o') /\ Inv f E o' /\
    (forall k, gett o k <> None -> gett o' k <> None) /\ (forall k, gett o k = Some (E k) -> gett o' k = Some (E k)) /\
    (forall k, In k ks -> gett o' k = Some (E k)) /\ (forall k, ~ In k ks -> is_derived k -> gett o' k = gett o k) /\
    ((forall k, In k ks -> in_range k) -> forall k, gett o' k <> None -> gett o k <> None \/ in_range k) /\ hdr o' = hdr o.
Proof.
  intros f E. induction ks as [|k ks IH]; intros d o Hd I.
  - exists o. cbn [map run]. repeat split; try (intros; assumption); try apply I; try contradiction. intros _ k G. left. assumption.
  - destruct (access_inv f E o k false I ltac:(discriminate)) as (o1 & Ac & I1 & S1). cbn [map run]. rewrite Hd, Ac.
    destruct (IH d o1 Hd I1) as (o' & R & I' & K1 & K2 & K3 & K4 & K5 & K6). rewrite R. exists o'. split; [reflexivity|]. split; [assumption|].
    split. { intros k' G. apply K1, (st_keep _ _ _ _ S1). assumption. }
    split. { intros k' G. apply K2, (st_mono _ _ _ _ S1). assumption. }
    split. { intros k' [<-|G]; [apply K2, (st_now _ _ _ _ S1)|apply K3; assumption]. }
    split. { intros k' G Ne. rewrite K4; [|intros C; apply G; right; assumption|assumption]. apply (st_negl _ _ _ _ S1); [|assumption].
             intros ->. apply G. left. reflexivity. }
    split. { intros R1 k' G. destruct (K5 ltac:(intros k0 I0; apply R1; right; assumption) k' G) as [G'|G']; [|right; assumption].
             apply (st_range _ _ _ _ S1); [apply R1; left; reflexivity|assumption]. }
    rewrite K6. apply (st_hdr _ _ _ _ S1).
Qed.

Lemma save_done : forall d (o : obj) o', load_before_save size (main d) o = Ok o' ->
  save size d o = Ok (o', {| main := Good (contents o'); backup := backup (moved d) |}).
Proof. intros d o o' E. unfold save. rewrite E. reflexivity. Qed.

(** Loading a written file: the invariant for the known arrays of the file. *)
Lemma load_inv : forall (F : file) (o : obj), (size hole <= 1)%nat -> written F -> load hole (Good F) = Ok o ->
  Inv (Good F) (expect (fun k => match read (Good F) k with Ok a => Some a | Err _ => None end)) o.
Proof.
  intros F o Hh W L. destruct (load_written F W) as (o0 & L0 & _ & N & _ & G1 & G2). rewrite L in L0. injection L0 as <-.
  destruct W as (Wn & _).
  assert (Rd : forall k, (exists a, read (Good F) k = Ok a) \/ (forall a, ~ stored F k a)).
  { intros k. destruct (read (Good F) k) as [a|e] eqn:R; [left; exists a; reflexivity|right]. intros a C. apply read_stored in C; [|assumption]. congruence. }
  constructor.
  - assumption.
  - intros k a Ga. right. destruct (Rd k) as [(b & R)|Ns].
    + rewrite (G1 k) in Ga by (exists b; apply read_stored; assumption). injection Ga as <-. split; [assumption|].
      rewrite (expect_known _ k b); [assumption|]. rewrite R. reflexivity.
    + rewrite (G2 k Ns) in Ga. discriminate.
  - intros k Ga. apply expect_new. destruct (Rd k) as [(b & R)|Ns].
    + rewrite (G1 k) in Ga by (exists b; apply read_stored; assumption). discriminate.
    + destruct (read (Good F) k) as [a|] eqn:R; [|reflexivity]. exfalso. apply (Ns a). apply read_stored; assumption.
Qed.
End Proofs.

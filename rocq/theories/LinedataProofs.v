(** Proofs about the shared table of lines. *)
From Coq Require Import ZArith List Bool Ascii String Reals Lia Lra.
From Verif Require Import LineModel LineSpec LineProofs LineProofs2 LinedataModel LinedataSpec.
Import ListNotations.
Local Open Scope nat_scope.

Section Process.
Variable Line : Type.
Variable parse : str -> option (Z * Line).

(** Either nothing was made yet, or there is one dictionary and all objects show it. *)
Definition one_table (p : process Line) (t : table Line) (n : nat) : Prop :=
  cached p = Some 0 /\ dicts p = [t] /\ objects p = repeat 0 n /\ 0 < n.

Definition inv (p : process Line) : Prop := p = started \/ exists t n, one_table p t n.

Lemma repeat_snoc : forall n, repeat 0 n ++ [0] = repeat 0 (S n).
Proof. induction n as [|n IH]; cbn [repeat app] in *; [reflexivity|]. rewrite IH. reflexivity. Qed.

Lemma nth_repeat : forall n i, nth_error (repeat 0 n) i = if i <? n then Some 0 else None.
Proof.
  induction n as [|n IH]; intros [|i]; try reflexivity. cbn [repeat nth_error]. rewrite IH.
  destruct (Nat.ltb_spec i n), (Nat.ltb_spec (S i) (S n)); try reflexivity; lia.
Qed.

Lemma shown_one : forall p t n i, one_table p t n -> shown p i = if i <? n then Some t else None.
Proof.
  intros p t n i (_ & D & O & _). unfold shown. rewrite O, D, nth_repeat. destruct (i <? n); reflexivity.
Qed.

Lemma new_one : forall p t n v d, one_table p t n ->
  (v = None /\ fst (new_object parse v d p) = Made /\ one_table (snd (new_object parse v d p)) t (S n)) \/
  (v <> None /\ new_object parse v d p = (UnboundLocalError, p)).
Proof.
  intros p t n [f|] d (C & D & O & N); unfold new_object.
  - right. split; [discriminate|reflexivity].
  - left. split; [reflexivity|]. rewrite C. cbn [fst snd]. split; [reflexivity|].
    unfold one_table. cbn [cached dicts objects]. rewrite O, repeat_snoc. repeat split; auto with arith.
Qed.

Lemma new_started : forall v d,
  (exists ls t, v = None /\ d = Some ls /\ read_vpfit Line parse ls = Some t /\
     fst (new_object parse v d started) = Made /\ one_table (snd (new_object parse v d started)) t 1) \/
  (fst (new_object parse v d started) <> Made /\ snd (new_object parse v d started) = started /\
   forall ls, v = None -> d = Some ls -> read_vpfit Line parse ls = None).
Proof.
  intros [f|] d; unfold new_object; cbn [cached started].
  - right. cbn [fst snd]. split; [discriminate|]. split; [reflexivity|]. discriminate.
  - destruct d as [ls|].
    + destruct (read_vpfit Line parse ls) as [t|] eqn:E.
      * left. exists ls, t. repeat split; auto.
      * right. cbn [fst snd]. split; [discriminate|]. split; [reflexivity|]. intros ls' _ X. injection X as <-. exact E.
    + right. cbn [fst snd]. split; [discriminate|]. split; [reflexivity|]. discriminate.
Qed.

Lemma change_one : forall p t n i sp ion w l, one_table p t n ->
  (fst (step parse p (Change i sp ion w l)) = Changed /\ i < n /\ getitem t sp ion <> None /\
     one_table (snd (step parse p (Change i sp ion w l))) (assign Line (sp, ion, w) l t) n) \/
  (fst (step parse p (Change i sp ion w l)) <> Changed /\ snd (step parse p (Change i sp ion w l)) = p).
Proof.
  intros p t n i sp ion w l (C & D & O & N). cbn [step]. rewrite O, nth_repeat. destruct (Nat.ltb_spec i n) as [I|I].
  - rewrite D. cbn [nth_error]. destruct (getitem t sp ion) as [g|] eqn:G.
    + left. cbn [fst snd]. split; [reflexivity|]. split; [exact I|]. split; [discriminate|]. repeat split; cbn [cached dicts objects]; auto.
    + right. cbn [fst snd]. split; [discriminate|reflexivity].
  - right. cbn [fst snd]. split; [discriminate|reflexivity].
Qed.

Lemma change_started : forall i sp ion w l, step parse started (Change i sp ion w l) = (NameError, started).
Proof. intros. cbn [step started objects]. destruct i; reflexivity. Qed.

Lemma step_inv : forall p e, inv p -> inv (snd (step parse p e)).
Proof.
  intros p e [-> |(t & n & H)].
  - destruct e as [v d|i sp ion w l].
    + cbn [step]. destruct (new_started v d) as [(ls & t & _ & _ & _ & _ & H)|(_ & -> & _)]; [right; eauto|left; reflexivity].
    + rewrite change_started. left. reflexivity.
  - destruct e as [v d|i sp ion w l].
    + cbn [step]. destruct (new_one p t n v d H) as [(_ & _ & X)|(_ & ->)]; [right; eauto|right; cbn [snd]; eauto].
    + destruct (change_one p t n i sp ion w l H) as [(_ & _ & _ & X)|(_ & ->)]; right; eauto.
Qed.

Lemma run_inv : forall es p, inv p -> inv (run parse p es).
Proof. induction es as [|e es IH]; intros p H; [exact H|]. cbn [run fold_left]. apply IH, step_inv, H. Qed.

Lemma run_started : forall es, inv (run parse started es).
Proof. intros. apply run_inv. left. reflexivity. Qed.

(** All objects show the same. *)
Lemma C127_same_aux : forall es i j t u, shown (run parse started es) i = Some t -> shown (run parse started es) j = Some u -> t = u.
Proof.
  intros es i j t u A B. destruct (run_started es) as [E|(t' & n & H)].
  - rewrite E in A. unfold shown in A. cbn [started objects] in A. destruct i; discriminate.
  - rewrite (shown_one _ _ _ _ H) in A. rewrite (shown_one _ _ _ _ H) in B. destruct (i <? n), (j <? n); congruence.
Qed.

Lemma run_made_one : forall es p t n, one_table p t n -> only_made es -> exists m, n <= m /\ one_table (run parse p es) t m.
Proof.
  induction es as [|e es IH]; intros p t n H M; [exists n; split; [lia|exact H]|].
  destruct (M e (or_introl eq_refl)) as (v & d & ->). cbn [run fold_left].
  assert (M' : only_made es) by (intros e He; apply M; right; exact He).
  cbn [step]. destruct (new_one p t n v d H) as [(_ & _ & X)|(_ & ->)].
  - destruct (IH _ t (S n) X M') as (m & L & Y). exists m. split; [lia|exact Y].
  - cbn [snd]. apply IH; assumption.
Qed.

Lemma nothing_reads : forall ls, read_vpfit Line parse ls = None <->
  exists line sp ion, In line ls /\ find_species line = Some (sp, ion) /\ In sp known_species /\ (0 <= ion)%Z /\ parse line = None.
Proof.
  intros ls. split.
  - unfold read_vpfit. generalize (@nil ((str * Z * Z) * Line)). induction ls as [|x ls IH]; intros t0 H; [discriminate|].
    cbn [fold_left] in H. destruct (read_line Line parse (Some t0) x) as [t1|] eqn:E.
    + destruct (IH t1 H) as (line & sp & ion & I & R). exists line, sp, ion. split; [right; exact I|exact R].
    + unfold read_line in E. destruct (find_species x) as [[sp ion]|] eqn:F; [|discriminate].
      destruct (existsb (str_eqb sp) known_species) eqn:K; [|discriminate]. cbn [negb orb] in E.
      destruct (Z.ltb_spec ion 0); [discriminate|]. destruct (parse x) as [[w l]|] eqn:P; [discriminate|].
      exists x, sp, ion. split; [left; reflexivity|]. split; [exact F|]. split; [apply str_eqb_in; exact K|]. split; [lia|exact P].
  - intros (line & sp & ion & I & F & K & P & N). destruct (read_vpfit Line parse ls) as [t|] eqn:E; [|reflexivity].
    exfalso. refine (proj1 (C51_reads_aux Line parse ls) (ex_intro _ t E) line sp ion I F K P N).
Qed.

Lemma made_from_started : forall es, only_made es ->
  (nothing_read parse es /\ run parse started es = started) \/
  (exists pre ls post t n, es = pre ++ New None (Some ls) :: post /\ nothing_read parse pre /\
     read_vpfit Line parse ls = Some t /\ one_table (run parse started es) t n).
Proof.
  induction es as [|e es IH]; intros M.
  - left. split; [intros ls []|reflexivity].
  - destruct (M e (or_introl eq_refl)) as (v & d & ->).
    assert (M' : only_made es) by (intros e He; apply M; right; exact He).
    cbn [run fold_left step]. destruct (new_started v d) as [(ls & t & -> & -> & R & _ & X)|(_ & E & R)].
    + right. destruct (run_made_one es _ t 1 X M') as (m & _ & Y). exists [], ls, es, t, m.
      split; [reflexivity|]. split; [intros ls' []|]. split; [exact R|exact Y].
    + rewrite E. destruct (IH M') as [(N & S')|(pre & ls & post & t & n & -> & N & R' & Y)].
      * left. split; [|exact S']. intros ls [X|X]; [|apply N; exact X]. injection X as -> ->. apply nothing_reads, (R ls); reflexivity.
      * right. exists (New v d :: pre), ls, post, t, n. split; [reflexivity|]. split; [|split; [exact R'|exact Y]].
        intros ls' [X|X]; [|apply N; exact X]. injection X as -> ->. apply nothing_reads, (R ls'); reflexivity.
Qed.

(** The first table that could be read is shown by every object. *)
Lemma C127_first_aux : forall es i t, only_made es -> shown (run parse started es) i = Some t ->
  exists pre ls post, es = pre ++ New None (Some ls) :: post /\ nothing_read parse pre /\ read_vpfit Line parse ls = Some t.
Proof.
  intros es i t M H. destruct (made_from_started es M) as [(_ & E)|(pre & ls & post & t' & n & E & N & R & Y)].
  - rewrite E in H. unfold shown in H. cbn [started objects] in H. destruct i; discriminate.
  - rewrite (shown_one _ _ _ _ Y) in H. destruct (i <? n); [|discriminate]. injection H as <-. eauto 6.
Qed.

(** A change is seen through all. *)
Lemma C127_change_aux : forall es es' i sp ion w l j t, only_made es' ->
  let before := run parse started es in
  fst (step parse before (Change i sp ion w l)) = Changed ->
  shown (run parse started (es ++ Change i sp ion w l :: es')) j = Some t ->
  exists old, shown before i = Some old /\ forall k, lookup Line k t = if key_eqb k (sp, ion, w) then Some l else lookup Line k old.
Proof.
  intros es es' i sp ion w l j t M before C H. subst before. unfold run in H. rewrite fold_left_app in H. cbn [fold_left] in H.
  change (shown (run parse (snd (step parse (run parse started es) (Change i sp ion w l))) es') j = Some t) in H.
  destruct (run_started es) as [E|(t0 & n & X)].
  - rewrite E, change_started in C. discriminate.
  - destruct (change_one _ t0 n i sp ion w l X) as [(_ & I & _ & Y)|(N & _)]; [|congruence].
    destruct (run_made_one es' _ _ _ Y M) as (m & _ & Z0). rewrite (shown_one _ _ _ _ Z0) in H. destruct (j <? m); [|discriminate].
    injection H as <-. exists t0. split.
    + rewrite (shown_one _ _ _ _ X). apply Nat.ltb_lt in I. rewrite I. reflexivity.
    + intros k. apply lookup_assign.
Qed.

(** When a construction fails. *)
Lemma C127_fails_aux : forall es disk,
  let p := run parse started es in
  (fst (step parse p (New None disk)) <> Made <->
   (forall i, shown p i = None) /\ forall ls, disk = Some ls -> nothing_read parse [New None (Some ls)]) /\
  (fst (step parse p (New None disk)) <> Made -> snd (step parse p (New None disk)) = p).
Proof.
  intros es disk p. pose proof (run_started es) as V. fold p in V. clearbody p. destruct V as [E|(t & n & X)].
  - rewrite E. cbn [step]. destruct (new_started None disk) as [(ls & t & _ & -> & R & F & _)|(F & S' & R)].
    + split; [|intros N; congruence]. split; [intros N; congruence|]. intros (_ & N). exfalso.
      pose proof (proj2 (nothing_reads ls) (N ls eq_refl ls (or_introl eq_refl))). congruence.
    + split; [|intros _; exact S']. split; [|intros _; exact F]. intros _. split; [intros [|i]; reflexivity|].
      intros ls D ls' [X|[]]. injection X as <-. apply nothing_reads. apply (R ls eq_refl D).
  - destruct (new_one p t n None disk X) as [(_ & F & _)|(N & _)]; [|congruence]. cbn [step].
    split; [|intros N; congruence]. split; [intros N; congruence|]. intros (N & _). specialize (N 0). rewrite (shown_one _ _ _ _ X) in N.
    destruct X as (_ & _ & _ & P). apply Nat.ltb_lt in P. rewrite P in N. discriminate.
Qed.

(** A named file. *)
Lemma C127_named_aux : forall p f disk, step parse p (New (Some f) disk) = (UnboundLocalError, p).
Proof. reflexivity. Qed.

(** ** Ions of a file *)

Definition in_table (t : table Line) (sp : str) (ion : Z) : Prop := exists w l, In ((sp, ion, w), l) t.

Lemma in_assign : forall t k v sp ion, in_table (assign Line k v t) sp ion <-> fst k = (sp, ion) \/ in_table t sp ion.
Proof.
  induction t as [|[k' v'] t IH]; intros k v sp ion; cbn [assign].
  - split.
    + intros (w & l & [X|[]]). injection X as -> _. left. reflexivity.
    + intros [E|(w & l & [])]. destruct k as [[s i] w]. cbn [fst] in E. injection E as -> ->. exists w, v. left. reflexivity.
  - destruct (key_eqb k k') eqn:K.
    + apply key_eqb_eq in K. subst k'. split.
      * intros (w & l & [X|X]); [injection X as -> _; left; reflexivity|right; exists w, l; right; exact X].
      * intros [E|(w & l & [X|X])].
        -- destruct k as [[s i] w]. cbn [fst] in E. injection E as -> ->. exists w, v. left. reflexivity.
        -- injection X as -> ->. exists w, v. left. reflexivity.
        -- exists w, l. right. exact X.
    + split.
      * intros (w & l & [X|X]); [right; exists w, l; left; exact X|].
        destruct (proj1 (IH k v sp ion) (ex_intro _ w (ex_intro _ l X))) as [E|(w' & l' & Y)]; [left; exact E|right; exists w', l'; right; exact Y].
      * intros [E|(w & l & [X|X])].
        -- destruct (proj2 (IH k v sp ion) (or_introl E)) as (w & l & Y). exists w, l. right. exact Y.
        -- exists w, l. left. exact X.
        -- destruct (proj2 (IH k v sp ion) (or_intror (ex_intro _ w (ex_intro _ l X)))) as (w' & l' & Y). exists w', l'. right. exact Y.
Qed.

Lemma in_read : forall ls t0 t sp ion, fold_left (read_line Line parse) ls (Some t0) = Some t ->
  in_table t sp ion <-> in_table t0 sp ion \/ mentions parse ls sp ion.
Proof.
  induction ls as [|x ls IH]; intros t0 t sp ion H.
  - cbn [fold_left] in H. injection H as <-. split; [left; assumption|]. intros [X|(line & w & l & [] & _)]. exact X.
  - cbn [fold_left] in H. destruct (read_line Line parse (Some t0) x) as [t1|] eqn:E; [|rewrite read_line_none in H; discriminate].
    rewrite (IH t1 t sp ion H). clear IH H.
    assert (Q : in_table t1 sp ion <-> in_table t0 sp ion \/ mentions parse [x] sp ion).
    { unfold read_line in E. destruct (find_species x) as [[sp' ion']|] eqn:F.
      - destruct (existsb (str_eqb sp') known_species) eqn:K; cbn [negb orb] in E.
        + destruct (Z.ltb_spec ion' 0) as [N|N].
          * injection E as <-. split; [left; assumption|]. intros [X|(line & w & l & [<-|[]] & F' & _ & P & _)]; [exact X|].
            rewrite F in F'. injection F' as -> ->. lia.
          * destruct (parse x) as [[w l]|] eqn:P; [|discriminate]. injection E as <-. rewrite in_assign. cbn [fst]. split.
            -- intros [X|X]; [|left; exact X]. injection X as -> ->. right. exists x, w, l. apply str_eqb_in in K.
               repeat split; auto. left. reflexivity.
            -- intros [X|(line & w' & l' & [<-|[]] & F' & _)]; [right; exact X|]. rewrite F in F'. injection F' as -> ->. left. reflexivity.
        + injection E as <-. split; [left; assumption|]. intros [X|(line & w & l & [<-|[]] & F' & K' & _)]; [exact X|].
          rewrite F in F'. injection F' as -> ->. apply str_eqb_in in K'. congruence.
      - injection E as <-. split; [left; assumption|]. intros [X|(line & w & l & [<-|[]] & F' & _)]; [exact X|]. congruence. }
    rewrite Q. split.
    + intros [[X|(line & w & l & [<-|[]] & R)]|(line & w & l & I & R)]; [left; exact X|right; exists x, w, l; split; [left; reflexivity|exact R]|].
      right. exists line, w, l. split; [right; exact I|exact R].
    + intros [X|(line & w & l & [<-|I] & R)]; [left; left; exact X|left; right; exists x, w, l; split; [left; reflexivity|exact R]|].
      right. exists line, w, l. split; [exact I|exact R].
Qed.

Lemma has_ion_iff : forall sp ion (e : (str * Z * Z) * Line), has_ion sp ion e = true <-> fst (fst e) = (sp, ion).
Proof.
  intros sp ion [[[s i] w] l]. unfold has_ion. cbn [fst snd]. rewrite andb_true_iff, str_eqb_eq, Z.eqb_eq. split; [intros (-> & ->); reflexivity|].
  intros E. injection E as -> ->. split; reflexivity.
Qed.

Lemma getitem_iff : forall t sp ion, getitem t sp ion <> None <-> in_table t sp ion.
Proof.
  intros t sp ion. unfold getitem. split.
  - destruct (filter (has_ion sp ion) t) as [|e es] eqn:E; [congruence|]. intros _.
    assert (I : In e (filter (has_ion sp ion) t)) by (rewrite E; left; reflexivity). apply filter_In in I as (I & H).
    apply has_ion_iff in H. destruct e as [[q w] l]. cbn [fst] in H. subst q. exists w, l. exact I.
  - intros (w & l & I). assert (J : In ((sp, ion, w), l) (filter (has_ion sp ion) t)).
    { apply filter_In. split; [exact I|]. apply has_ion_iff. reflexivity. }
    destruct (filter (has_ion sp ion) t); [destruct J|discriminate].
Qed.

Lemma ions_spec : forall t, NoDup (ions t) /\ forall sp ion, In (sp, ion) (ions t) <-> in_table t sp ion.
Proof.
  induction t as [|[[[s i] w] l] t (N & IH)]; cbn [ions fst snd].
  - split; [constructor|]. intros sp ion. split; [intros []|intros (w & l & [])].
  - set (b := existsb _ _). assert (B : b = true <-> In (s, i) (ions t)).
    { unfold b. rewrite existsb_exists. split.
      - intros ([s' i'] & I & H). cbn [fst snd] in H. apply andb_true_iff in H as (A & C). apply str_eqb_eq in A. apply Z.eqb_eq in C. subst. exact I.
      - intros I. exists (s, i). split; [exact I|]. cbn [fst snd]. apply andb_true_iff. split; [apply str_eqb_eq|apply Z.eqb_eq]; reflexivity. }
    destruct b.
    + split; [exact N|]. intros sp ion. rewrite IH. split.
      * intros (w' & l' & I). exists w', l'. right. exact I.
      * intros (w' & l' & [X|I]); [|exists w', l'; exact I]. injection X as -> -> _ _. apply IH, B. reflexivity.
    + split; [constructor; [intros X; apply B in X; discriminate|exact N]|]. intros sp ion. cbn [In]. rewrite IH. split.
      * intros [X|(w' & l' & I)]; [injection X as -> ->; exists w, l; left; reflexivity|exists w', l'; right; exact I].
      * intros (w' & l' & [X|I]); [injection X as -> -> _ _; left; reflexivity|right; exists w', l'; exact I].
Qed.

Lemma C127_ions_aux : forall ls t, read_vpfit Line parse ls = Some t ->
  (forall sp ion, getitem t sp ion <> None <-> mentions parse ls sp ion) /\
  exists ks, NoDup ks /\ len t = List.length ks /\ forall sp ion, In (sp, ion) ks <-> mentions parse ls sp ion.
Proof.
  intros ls t H. assert (Q : forall sp ion, in_table t sp ion <-> mentions parse ls sp ion).
  { intros sp ion. rewrite (in_read ls [] t sp ion H). split; [|right; assumption]. intros [(w & l & [])|X]; exact X. }
  split; [intros sp ion; rewrite getitem_iff; apply Q|]. destruct (ions_spec t) as (N & I). exists (ions t).
  split; [exact N|]. split; [reflexivity|]. intros sp ion. rewrite I. apply Q.
Qed.

(** The mass of every ion that can be looked up is known. *)
Lemma C127_mass_aux : forall ls t sp ion, read_vpfit Line parse ls = Some t -> getitem t sp ion <> None ->
  exists m, get_mass sp = Some m /\ (1 < m)%R.
Proof.
  intros ls t sp ion H G. destruct (C127_ions_aux ls t H) as (Q & _). apply Q in G as (line & w & l & _ & _ & K & _).
  unfold known_species in K. cbn [map In] in K.
  decompose [or] K; try contradiction; subst sp; unfold get_mass; cbn [find masses]; eexists; (split; [reflexivity|]); cbn [snd]; lra.
Qed.
End Process.

Lemma C127_unknown_mass_aux : forall sp, (exists m, get_mass sp = Some m) <-> In sp known_species.
Proof.
  intros sp. split.
  - intros (m & H). unfold get_mass in H. destruct (find (fun e => str_eqb sp (fst e)) masses) as [e|] eqn:E; [|discriminate].
    apply find_some in E as (I & S'). apply str_eqb_eq in S'. subst sp.
    assert (J : In (fst e) (map fst masses)) by (apply in_map, I). exact J.
  - intros K. unfold known_species in K. cbn [map In] in K.
    decompose [or] K; try contradiction; subst sp; eexists; reflexivity.
Qed.

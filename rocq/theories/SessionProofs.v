(** Histories of statistics: reduction to one array per line. *)
From Coq Require Import ZArith Ascii String List Reals Lra Lia Permutation.
From Verif Require Import IndexModel AbsorptionSpec AbsorptionProofs RescaleModel RescaleSpec FilterModel FilterSpec FilterProofs FluxModel ObserverModel CurveModel
  SessionModel SessionSpec.
Import ListNotations.
Local Open Scope R_scope.

Lemma update_nth_length' : forall (A : Type) r (f : A -> A) l, length (update_nth r f l) = length l.
Proof. intros A r f l. revert r. induction l as [|x l IH]; intros [|r]; cbn [update_nth length]; auto. Qed.

Lemma update_nth_same : forall (A : Type) r (a d : A) l, (r < length l)%nat -> nth r (update_nth r (fun _ => a) l) d = a.
Proof. intros A r a d l. revert r. induction l as [|x l IH]; intros [|r] H; cbn [update_nth length nth] in *; try lia; auto. apply IH. lia. Qed.

Lemma update_nth_other : forall (A : Type) r r' (a d : A) l, r <> r' -> nth r' (update_nth r (fun _ => a) l) d = nth r' l d.
Proof.
  intros A r r' a d l. revert r r'. induction l as [|x l IH]; intros [|r] [|r'] H; cbn [update_nth nth]; auto; try congruence.
Qed.

Section Session.
Variable compute : key -> matrix.
Variable parts : list R -> nat -> list (list R).
Variable fuel : nat.
Variable power3d : R * R * R -> list (R * R * R * R) -> list R.
Variable nbins : nat.
Variables vmax spec_res box dvbin velfac atime light : R.
Hypothesis Reg : regular fuel compute.

Notation get_tau := (get_tau compute).
Notation exec := (exec compute parts fuel power3d nbins vmax spec_res box dvbin velfac atime light).
Notation session := (session compute parts fuel power3d nbins vmax spec_res box dvbin velfac atime light).
Notation reply := (reply parts fuel power3d nbins vmax spec_res box).
Notation rescaled := (SessionModel.rescaled parts fuel).

(** The array the object answers from. *)
Definition cur (st : state) (k : key) : matrix :=
  match lookup (cache st) k with Some r => nth r (heap st) [] | None => compute k end.

Record inv (st : state) : Prop := {
  inv_in : forall k r, lookup (cache st) k = Some r -> (r < length (heap st))%nat;
  inv_one : forall k k' r, lookup (cache st) k = Some r -> lookup (cache st) k' = Some r -> k = k';
  inv_size : forall k, (1 < size (cur st k))%nat }.

Lemma inv_new : inv new_object.
Proof. split; cbn; [discriminate|discriminate|]. intros k. apply (Reg k). Qed.

Lemma computed_spec : forall k st r st1, inv st -> computed compute k st = (r, st1) ->
  inv st1 /\ lookup (cache st1) k = Some r /\ nth r (heap st1) [] = compute k /\ (forall k', k' <> k -> cur st1 k' = cur st k') /\
  exists more, heap st1 = heap st ++ more.
Proof.
  intros k st r st1 [I1 I2 I3] E. unfold computed in E. injection E as <- <-.
  assert (N : nth (length (heap st)) (heap st ++ [compute k]) [] = compute k) by (rewrite app_nth2, Nat.sub_diag by lia; reflexivity).
  assert (O : forall k', k' <> k -> cur (mkState (heap st ++ [compute k]) ((k, length (heap st)) :: cache st)) k' = cur st k').
  { intros k' H. unfold cur. cbn [cache heap lookup]. destruct (key_dec k' k); [contradiction|].
    destruct (lookup (cache st) k') as [r|] eqn:L; [|reflexivity]. rewrite app_nth1; [reflexivity|]. apply (I1 _ _ L). }
  split; [split|].
  - intros k' r. cbn [cache heap lookup]. rewrite app_length. cbn [length]. destruct (key_dec k' k); [intros E; injection E as <-; lia|].
    intros L. apply I1 in L. lia.
  - intros k1 k2 r. cbn [cache lookup]. destruct (key_dec k1 k) as [-> |], (key_dec k2 k) as [-> |]; auto.
    + intros E L. injection E as <-. apply I1 in L. lia.
    + intros L E. injection E as <-. apply I1 in L. lia.
    + apply I2.
  - intros k'. destruct (key_dec k' k) as [-> |H]; [|rewrite O by assumption; apply I3].
    unfold cur. cbn [cache heap lookup]. destruct (key_dec k k); [|contradiction]. rewrite N. apply (Reg k).
  - cbn [cache heap lookup]. destruct (key_dec k k); [|contradiction]. split; [reflexivity|]. split; [exact N|]. split; [exact O|].
    exists [compute k]. reflexivity.
Qed.

Lemma get_tau_spec : forall force k st, inv st -> exists r st1, get_tau force k st = Some (r, st1) /\ inv st1 /\
  lookup (cache st1) k = Some r /\ nth r (heap st1) [] = (if force then compute k else cur st k) /\
  (forall k', k' <> k -> cur st1 k' = cur st k') /\ exists more, heap st1 = heap st ++ more.
Proof.
  intros force k st I. unfold SessionModel.get_tau.
  destruct (computed compute k st) as (r1, s1) eqn:C. pose proof (computed_spec k st r1 s1 I C) as (X1 & X2 & X3 & X4 & X5).
  destruct force.
  - exists r1, s1. repeat split; try assumption; apply X1.
  - unfold cur at 1. destruct (lookup (cache st) k) as [r|] eqn:L.
    + pose proof (inv_size st I k) as Z. unfold cur in Z. rewrite L in Z. apply Nat.ltb_lt in Z. rewrite Z.
      exists r, st. split; [reflexivity|]. split; [exact I|]. split; [exact L|]. split; [reflexivity|]. split; [auto|]. exists []. rewrite app_nil_r. reflexivity.
    + exists r1, s1. repeat split; try assumption; apply X1.
Qed.

Lemma store_spec : forall k r a st, inv st -> lookup (cache st) k = Some r -> (1 < size a)%nat ->
  inv (store r a st) /\ cur (store r a st) k = a /\ (forall k', k' <> k -> cur (store r a st) k' = cur st k') /\ length (heap (store r a st)) = length (heap st).
Proof.
  intros k r a st [I1 I2 I3] L Z.
  assert (K : cur (store r a st) k = a).
  { unfold cur, store. cbn [cache heap]. rewrite L. apply update_nth_same. apply (I1 _ _ L). }
  assert (O : forall k', k' <> k -> cur (store r a st) k' = cur st k').
  { intros k' H. unfold cur, store. cbn [cache heap]. destruct (lookup (cache st) k') as [r'|] eqn:L'; [|reflexivity].
    apply update_nth_other. intros <-. apply H. apply (I2 _ _ _ L' L). }
  split; [split|].
  - intros k' r'. unfold store. cbn [cache heap]. rewrite update_nth_length'. apply I1.
  - intros k1 k2 r'. apply I2.
  - intros k'. destruct (key_dec k' k) as [-> |H]; [rewrite K; exact Z|rewrite O by assumption; apply I3].
  - split; [exact K|]. split; [exact O|]. unfold store. cbn [heap]. apply update_nth_length'.
Qed.

Lemma store_same : forall k r st, inv st -> lookup (cache st) k = Some r -> store r (nth r (heap st) []) st = st.
Proof.
  intros k r [h c] I L. pose proof (inv_in _ I k r L) as H. unfold store. cbn [heap cache] in *. f_equal. clear -H. revert r H.
  induction h as [|x h IH]; intros [|r] H; cbn [update_nth nth length] in *; try lia; f_equal. apply IH. lia.
Qed.

(** ** What a call does *)
Definition forced (q : query) : bool := match q with Fetch f _ _ => f | _ => false end.
Definition base (q : query) (st : state) : matrix := if forced q then compute (about q) else cur st (about q).
Definition masking (q : query) (a : matrix) : option matrix :=
  match q with
  | Ask _ _ th => match filter_tau fuel a th with Done b => Some b | _ => None end
  | _ => Some a
  end.
Definition answer (q : query) (a : matrix) : option result :=
  match q with
  | Ask s _ _ => reply s a
  | Fetch _ _ None => Some (Array a)
  | Fetch _ _ (Some i) => option_map Values (nth_error a i)
  | EqWidth k => Some (Values (equivalent_width dvbin light (IZR (snd k)) a))
  | Curvature k size => option_map Values (get_curvature parts fuel vmax velfac box atime size nbins (map (map (fun t => exp (- t))) a))
  end.
Definition final (q : query) (a : matrix) : option matrix := match q with Ask s _ _ => rescaled s a | _ => Some a end.

Lemma exec_spec : forall q st, inv st ->
  match masking q (base q st) with
  | None => exec q st = None
  | Some a => match final q a with
              | None => exec q st = None
              | Some a' => exists st', exec q st = Some (answer q a, st') /\
                  ((1 < size a')%nat -> inv st' /\ cur st' (about q) = a' /\ (forall k, k <> about q -> cur st' k = cur st k)) /\
                  (a' = base q st -> exists more, heap st' = heap st ++ more)
              end
  end.
Proof.
  intros q st I.
  assert (P : forall f k, exists r st1, get_tau f k st = Some (r, st1) /\ inv st1 /\ cur st1 k = nth r (heap st1) [] /\
     lookup (cache st1) k = Some r /\ nth r (heap st1) [] = (if f then compute k else cur st k) /\ (forall k', k' <> k -> cur st1 k' = cur st k') /\
     exists more, heap st1 = heap st ++ more).
  { intros f k. destruct (get_tau_spec f k st I) as (r & st1 & E & I1 & L & N & O & M). exists r, st1.
    split; [exact E|]. split; [exact I1|]. split; [unfold cur; rewrite L; reflexivity|]. auto. }
  destruct q as [s k th|f k num|k|k sz]; unfold masking, final, base, answer; cbn [forced about SessionModel.exec].
  - destruct (P false k) as (r & st1 & E & I1 & C & L & N & O & M). rewrite E, N.
    destruct (filter_tau fuel (cur st k) th) as [a| |]; try reflexivity.
    destruct (rescaled s a) as [a'|]; [|reflexivity].
    exists (store r a' st1). split; [reflexivity|]. split.
    + intros Z. destruct (store_spec k r a' st1 I1 L Z) as (J & K & Q & _). split; [exact J|]. split; [exact K|].
      intros k' H. rewrite Q by assumption. apply O, H.
    + intros ->. rewrite <- N, store_same with (k := k) by assumption. exact M.
  - destruct (P f k) as (r & st1 & E & I1 & C & L & N & O & M). rewrite E. exists st1. split.
    { destruct num; rewrite N; reflexivity. }
    split; [|intros _; exact M]. intros _. split; [exact I1|]. split; [rewrite C; exact N|exact O].
  - destruct (P false k) as (r & st1 & E & I1 & C & L & N & O & M). rewrite E. exists st1. split.
    { rewrite N; reflexivity. }
    split; [|intros _; exact M]. intros _. split; [exact I1|]. split; [rewrite C; exact N|exact O].
  - destruct (P false k) as (r & st1 & E & I1 & C & L & N & O & M). rewrite E. exists st1. split.
    { rewrite N; reflexivity. }
    split; [|intros _; exact M]. intros _. split; [exact I1|]. split; [rewrite C; exact N|exact O].
Qed.

(** ** Histories without masks *)
Lemma plain_kept : forall q a, plain q -> masking q a = Some a /\ final q a = Some a.
Proof.
  intros [s k th|f k num|k|k sz] a H; cbn [plain] in H; try (split; reflexivity).
  destruct s as [|n d|d w|[d|]]; destruct th; cbn in *; try contradiction; split; reflexivity.
Qed.

Lemma plain_exec : forall q st, plain q -> inv st -> exists st', exec q st = Some (answer q (base q st), st') /\ inv st' /\
  cur st' (about q) = base q st /\ (forall k, k <> about q -> cur st' k = cur st k) /\ exists more, heap st' = heap st ++ more.
Proof.
  intros q st H I. pose proof (exec_spec q st I) as E. destruct (plain_kept q (base q st) H) as [E1 E2]. rewrite E1, E2 in E.
  destruct E as (st' & E & F & M). exists st'. split; [exact E|].
  assert (Z : (1 < size (base q st))%nat) by (unfold base; destruct (forced q); [apply Reg|apply (inv_size st I)]).
  destruct (F Z) as (X1 & X2 & X3). split; [exact X1|]. split; [exact X2|]. split; [exact X3|]. apply M. reflexivity.
Qed.

Lemma base_new : forall q, base q new_object = compute (about q).
Proof. intros. unfold base, cur. cbn. destruct (forced q); reflexivity. Qed.

Lemma C107_plain_aux : forall qs, List.Forall plain qs -> exists answers st, session qs new_object = Some (answers, st) /\
  Forall2 (fun q a => exists st1, session [q] new_object = Some ([a], st1)) qs answers.
Proof.
  assert (G : forall qs st, List.Forall plain qs -> inv st -> (forall k, cur st k = compute k) ->
     exists answers st', session qs st = Some (answers, st') /\ Forall2 (fun q a => a = answer q (compute (about q))) qs answers).
  { induction qs as [|q qs IH]; intros st H I C.
    - exists [], st. split; [reflexivity|constructor].
    - apply Forall_cons_iff in H. destruct H as [H1 H2]. destruct (plain_exec q st H1 I) as (st1 & E & I1 & K & O & M).
      assert (B : base q st = compute (about q)) by (unfold base; destruct (forced q); [reflexivity|apply C]).
      destruct (IH st1 H2 I1) as (l & st2 & E2 & F).
      { intros k. destruct (key_dec k (about q)) as [-> |N]; [rewrite K; exact B|rewrite O by assumption; apply C]. }
      exists (answer q (base q st) :: l), st2. cbn [SessionModel.session]. rewrite E, E2. split; [reflexivity|]. constructor; [rewrite B; reflexivity|exact F]. }
  intros qs H. destruct (G qs new_object H inv_new) as (l & st & E & F); [reflexivity|].
  exists l, st. split; [exact E|]. clear E. revert H. induction F as [|q a qs l Ha F IH]; intros H; constructor.
  - apply Forall_cons_iff in H. destruct (plain_exec q new_object (proj1 H) inv_new) as (st1 & E & _).
    exists st1. cbn [SessionModel.session]. rewrite E, base_new, Ha. reflexivity.
  - apply IH. apply Forall_cons_iff in H. apply H.
Qed.

(** Arrays handed out by a plain history stay as they are. *)
Lemma C107_held_aux : forall qs qs' answers st answers' st', List.Forall plain qs -> List.Forall plain qs' ->
  session qs new_object = Some (answers, st) -> session qs' st = Some (answers', st') -> exists more, heap st' = heap st ++ more.
Proof.
  assert (G : forall qs st l st', List.Forall plain qs -> inv st -> session qs st = Some (l, st') -> inv st' /\ exists more, heap st' = heap st ++ more).
  { induction qs as [|q qs IH]; intros st l st' H I E; cbn [SessionModel.session] in E.
    - injection E as _ <-. split; [exact I|]. exists []. rewrite app_nil_r. reflexivity.
    - apply Forall_cons_iff in H. destruct H as [H1 H2]. destruct (plain_exec q st H1 I) as (st1 & E1 & I1 & _ & _ & m1 & M).
      rewrite E1 in E. destruct (session qs st1) as [(l1, st2)|] eqn:E2; [|discriminate]. injection E as _ <-.
      destruct (IH _ _ _ H2 I1 E2) as (I2 & m2 & M2). split; [exact I2|]. exists (m1 ++ m2). rewrite M2, M, app_assoc. reflexivity. }
  intros qs qs' l st l' st' H H' E E'. destruct (G _ _ _ _ H inv_new E) as (I & _). apply (G _ _ _ _ H' I E').
Qed.

End Session.

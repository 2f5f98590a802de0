(** Proofs for C89 and C90: references, and the outcomes of the calls. *)
From Coq Require Import List Bool ZArith Arith Lia.
From Verif Require Import EntryModel EntrySpec.
Import ListNotations.
Local Open Scope Z_scope.

(** ** Types *)

Lemma check_float_spec : forall a, check_float a = false <-> a_type a = Float32.
Proof. intros [[] s c]; cbn; split; congruence. Qed.
Lemma check_double_spec : forall a, check_double a = false <-> a_type a = Float64.
Proof. intros [[] s c]; cbn; split; congruence. Qed.
Lemma check_int_spec : forall a, check_int a = false <-> a_type a = Int32.
Proof. intros [[] s c]; cbn; split; congruence. Qed.

(** ** Events that leave the counts alone *)

Definition uses (L : list obj) (e : event) : Prop :=
  match e with Read o _ _ | Write o _ _ => In o L | Overflow => True | _ => False end.

Lemma gained_app : forall o a b, gained o (a ++ b) = gained o a + gained o b.
Proof. intros o a b. induction a as [|e a IH]; [reflexivity|]. cbn [app gained]. rewrite IH. ring. Qed.

Lemma gained_uses : forall o L tr, Forall (uses L) tr -> gained o tr = 0.
Proof.
  intros o L tr F. induction F as [|e tr E F IH]; [reflexivity|]. cbn [gained]. rewrite IH. destruct e; cbn in *; try contradiction; reflexivity.
Qed.

Lemma contiguous_spec : forall k a o e, contiguous k a = (o, e) ->
  (e = Incref o \/ e = Create o) /\ (o = Arg k \/ o = Copy k) /\
  forall args out, nth_error args k = Some a -> bytes args out o = Some (elements a * itemsize (a_type a)).
Proof.
  intros k a o e. unfold contiguous. destruct (a_contig a) eqn:C; intros E; injection E as <- <-; repeat split; auto;
    intros args out N; cbn; rewrite N; [rewrite C|]; reflexivity.
Qed.

Lemma change_got : forall o e x, e = Incref o \/ e = Create o -> change x e = if obj_eqb x o then 1 else 0.
Proof. intros o e x [-> | ->]; reflexivity. Qed.

Lemma uses_weaken : forall L M e, incl L M -> uses L e -> uses M e.
Proof. intros L M [o|o|o|o w i|o w i|] I U; cbn in *; auto. Qed.

Lemma Forall_flat_map' : forall {A B} (P : B -> Prop) (f : A -> list B) l, (forall x, In x l -> Forall P (f x)) -> Forall P (flat_map f l).
Proof.
  intros A B P f l H. induction l as [|x l IH]; [constructor|]. cbn. apply Forall_app. split; [apply H; now left|].
  apply IH. intros y I. apply H. now right.
Qed.

Ltac fa := repeat (apply Forall_cons || apply Forall_nil).

Lemma build_uses : forall axis cofm ls, Forall (uses [axis; cofm]) (build_reads axis cofm ls).
Proof. intros. apply Forall_flat_map'. intros i _. fa; cbn; auto. Qed.

Lemma loop_uses : forall pos h axis cofm ls visit n, Forall (uses [pos; h; axis; cofm]) (loop_reads pos h axis cofm ls visit n).
Proof.
  intros. apply Forall_flat_map'. intros i _. constructor; [cbn; auto|]. unfold search_reads.
  apply Forall_app. split; [destruct (some_other ls); fa; cbn; auto|].
  apply Forall_app. split; [destruct (some_x ls); fa; cbn; auto|].
  apply Forall_flat_map'. intros l _. fa; cbn; auto.
Qed.

Lemma int_read_uses : forall L o i, In o L -> uses L (int_read o i).
Proof. intros L o i I. unfold int_read. destruct (i <=? 2147483647); cbn; auto. Qed.

Lemma line_uses : forall q pos vel dens temp h axis cofm l L, incl [pos; dens; h; axis; cofm; Output] L -> (q_tau q = true -> incl [vel; temp] L) ->
  Forall (uses L) (line_accesses q pos vel dens temp h axis cofm l).
Proof.
  intros q pos vel dens temp h axis cofm l L I T.
  assert (In pos L /\ In dens L /\ In h L /\ In axis L /\ In cofm L /\ In Output L) as (Ip & Id & Ih & Ia & Ic & Io) by (repeat split; apply I; cbn; tauto).
  unfold line_accesses. apply Forall_app. split.
  - destruct (q_mesh q); [|constructor]. constructor; [exact Ia|]. unfold cell_reads. apply Forall_app. split; [fa; exact Ic|].
    apply Forall_flat_map'. intros p _. fa; apply int_read_uses; exact Ip.
  - constructor; [exact Ia|]. apply Forall_flat_map'. intros p _. apply Forall_app. split; [|apply Forall_app; split].
    + constructor; [apply int_read_uses; exact Ip|]. destruct (q_tau q) eqn:E; [|constructor]. fa. apply int_read_uses. apply (T eq_refl). now left.
    + constructor; [exact Id|]. apply Forall_app. split.
      * destruct (q_tau q) eqn:E; [|constructor]. fa. cbn. apply (T eq_refl). right. now left.
      * destruct (q_mesh q); fa. exact Ih.
    + apply Forall_forall. intros e IN. apply in_map_iff in IN as (j & <- & _). exact Io.
Qed.

(** ** Objects in use *)

Definition hold (o : obj) (c : obj -> Z) : Prop := match o with Arg _ => 0 <= c o | _ => 0 < c o end.

Fixpoint alive_from (c : obj -> Z) (tr : list event) : Prop :=
  match tr with
  | [] => True
  | e :: tr' => match e with Read o _ _ | Write o _ _ | Decref o => hold o c | _ => True end /\ alive_from (fun o => c o + change o e) tr'
  end.

Lemma hold_ext : forall c d o, (forall x, c x = d x) -> hold o c -> hold o d.
Proof. intros c d o E H. unfold hold in *. destruct o; rewrite <- E; exact H. Qed.

Lemma alive_ext : forall tr c d, (forall o, c o = d o) -> alive_from c tr -> alive_from d tr.
Proof.
  induction tr as [|e tr IH]; intros c d E H; [exact I|]. destruct H as (H1 & H2). split.
  - destruct e; auto; apply (hold_ext c d _ E H1).
  - apply (IH (fun o => c o + change o e)); [intros o; now rewrite E|exact H2].
Qed.

Lemma alive_app : forall a c b, alive_from c a -> alive_from (fun o => c o + gained o a) b -> alive_from c (a ++ b).
Proof.
  induction a as [|e a IH]; intros c b A B; [apply (alive_ext b (fun o => c o + gained o [])); [intros o; cbn; ring|exact B]|].
  destruct A as (A1 & A2). cbn [app]. split; [exact A1|]. apply IH; [exact A2|].
  apply (alive_ext b (fun o => c o + gained o (e :: a))); [|exact B]. intros o. cbn [gained]. ring.
Qed.

Lemma alive_uses : forall L tr c, Forall (uses L) tr -> (forall o, In o L -> hold o c) -> alive_from c tr.
Proof.
  intros L tr. induction tr as [|e tr IH]; intros c F H; [exact I|]. inversion F as [|x y U F']; subst. split.
  - destruct e; cbn in U; auto; contradiction.
  - apply IH; [exact F'|]. intros o IN. apply (hold_ext c); [|now apply H]. intros x. destruct e; cbn in U; try contradiction; cbn; ring.
Qed.

Lemma alive_from_spec : forall tr c, alive_from c tr -> forall before e after, tr = before ++ e :: after ->
  match e with Read o _ _ | Write o _ _ | Decref o => hold o (fun x => c x + gained x before) | _ => True end.
Proof.
  induction tr as [|x tr IH]; intros c A before e after E; [destruct before; discriminate|].
  destruct A as (A1 & A2). destruct before as [|y before].
  - cbn in E. injection E as -> ->. destruct e; auto; apply (hold_ext c); try exact A1; intros z; cbn; ring.
  - cbn [app] in E. injection E as <- E. specialize (IH _ A2 _ _ _ E). destruct e; auto;
      (eapply hold_ext; [|exact IH]); intros z; cbn [gained]; ring.
Qed.

Lemma alive_start : forall tr, alive_from (fun _ => 0) tr -> alive tr.
Proof.
  intros tr A before e after E. pose proof (alive_from_spec tr _ A before e after E) as H.
  destruct e; auto; unfold hold, held in *; destruct o; lia.
Qed.

(** ** Outcomes *)

Ltac types := repeat match goal with
  | H : check_float ?a = false |- _ => apply check_float_spec in H
  | H : check_double ?a = false |- _ => apply check_double_spec in H
  | H : check_int ?a = false |- _ => apply check_int_spec in H
  | H : check_float ?a = true |- _ => let N := fresh "N" in assert (N : a_type a <> Float32) by (intros X; apply check_float_spec in X; congruence); clear H
  | H : check_double ?a = true |- _ => let N := fresh "N" in assert (N : a_type a <> Float64) by (intros X; apply check_double_spec in X; congruence); clear H
  | H : check_int ?a = true |- _ => let N := fresh "N" in assert (N : a_type a <> Int32) by (intros X; apply check_int_spec in X; congruence); clear H
  end.

Lemma near_outcome_aux : forall q,
  (snd (near_lines q) = Returned <-> near_shapes q /\ line_types (n_cofm q) (n_axis q) /\ a_type (n_pos q) = Float32 /\ a_type (n_hh q) = Float32) /\
  (snd (near_lines q) = Undefined <-> (2 <= length (a_shape (n_cofm q)))%nat /\ a_shape (n_axis q) <> [] /\ a_shape (n_pos q) = []) /\
  (snd (near_lines q) = Raised TypeError <-> near_shapes q /\ line_types (n_cofm q) (n_axis q) /\ ~ (a_type (n_pos q) = Float32 /\ a_type (n_hh q) = Float32)) /\
  (snd (near_lines q) <> Returned -> fst (near_lines q) = []).
Proof.
  intros [pos hh axis cofm va vi]. unfold near_lines, near_shapes, line_types, ndim, dim.
  cbn [n_pos n_hh n_axis n_cofm n_values n_visit].
  destruct (a_shape cofm) as [|n [|t rc]] eqn:Sc; cbn [length nth_error Nat.ltb Nat.leb orb].
  - cbn. repeat split; try discriminate; try reflexivity; try (intros (A & B); destruct A as (? & ? & ? & ? & ? & A & _); discriminate); intros (A & _); lia.
  - cbn. repeat split; try discriminate; try reflexivity; try (intros (A & B); destruct A as (? & ? & ? & ? & ? & A & _); discriminate); intros (A & _); lia.
  - destruct (a_shape axis) as [|na ra] eqn:Sa; cbn [length nth_error Nat.ltb Nat.leb orb].
    + cbn. repeat split; try discriminate; try reflexivity; try (intros (A & B); destruct A as (? & ? & ? & ? & ? & _ & A & _); discriminate). intros (_ & A & _). congruence.
    + destruct (a_shape pos) as [|np rp] eqn:Sp; cbn [nth_error].
      * cbn. repeat split; try discriminate; try reflexivity; try lia; try (intros (A & B); destruct A as (? & ? & ? & ? & ? & _ & _ & A); discriminate); try congruence.
      * destruct (n =? na) eqn:E1; [apply Z.eqb_eq in E1; subst na|apply Z.eqb_neq in E1]; cbn [negb orb].
        2:{ repeat split; try discriminate; try reflexivity; try (intros (A & B); destruct A as (? & ? & ? & ? & ? & A1 & A2 & A3); injection A1; injection A2; congruence).
            intros (_ & _ & A). discriminate. }
        destruct (3 =? t) eqn:E2; [apply Z.eqb_eq in E2; subst t|apply Z.eqb_neq in E2]; cbn [negb].
        2:{ repeat split; try discriminate; try reflexivity; try (intros (A & B); destruct A as (? & ? & ? & ? & ? & A1 & A2 & A3); injection A1; congruence).
            intros (_ & _ & A). discriminate. }
        assert (SH : exists n' p r1 r2 r3, n :: 3 :: rc = n' :: 3 :: r1 /\ n :: ra = n' :: r2 /\ np :: rp = p :: r3) by (do 5 eexists; repeat split).
        destruct (check_double cofm) eqn:T1; cbn [orb]; types.
        { repeat split; try discriminate; try reflexivity; try tauto. intros (_ & _ & A). discriminate. }
        destruct (check_int axis) eqn:T2; cbn [orb]; types.
        { repeat split; try discriminate; try reflexivity; try tauto. intros (_ & _ & A). discriminate. }
        destruct (check_float pos) eqn:T3; cbn [orb]; types.
        { repeat split; try discriminate; try reflexivity; try tauto. intros (_ & _ & A). discriminate. }
        destruct (check_float hh) eqn:T4; types.
        { repeat split; try discriminate; try reflexivity; try tauto. intros (_ & _ & A). discriminate. }
        destruct (contiguous 3 cofm), (contiguous 2 axis), (contiguous 0 pos), (contiguous 1 hh). cbn [snd fst].
        repeat split; try discriminate; try tauto; try (intros (_ & _ & A); discriminate); try (intros (A & B & C); tauto).
Qed.

Lemma interp_returned : forall q tr, interpolate q = (tr, Returned) -> interp_types q /\ interp_lengths q /\ 0 < q_nbins q.
Proof.
  intros q tr. unfold interpolate, interp_types, line_types, interp_lengths, first_dim, dim.
  destruct (check_float (q_pos q)) eqn:T1; [discriminate|]. destruct (check_float (q_vel q)) eqn:T2; [discriminate|].
  destruct (check_float (q_dens q)) eqn:T3; [discriminate|]. destruct (check_float (q_temp q)) eqn:T4; [discriminate|].
  destruct (check_float (q_h q)) eqn:T5; [discriminate|]. destruct (check_double (q_cofm q)) eqn:T6; [discriminate|].
  destruct (check_int (q_axis q)) eqn:T7; [discriminate|]. types. cbn [orb].
  destruct (a_shape (q_cofm q)) as [|n rc]; [discriminate|]. destruct (a_shape (q_pos q)) as [|p rp]; [discriminate|].
  destruct (a_shape (q_dens q)) as [|nd rd]; [discriminate|]. cbn [nth_error].
  destruct (p =? nd) eqn:E1; [apply Z.eqb_eq in E1; subst nd|discriminate]. cbn [negb].
  destruct (a_shape (q_h q)) as [|nh rh]; [discriminate|]. destruct (p =? nh) eqn:E2; [apply Z.eqb_eq in E2; subst nh|discriminate]. cbn [negb].
  destruct (a_shape (q_axis q)) as [|na ra]; [discriminate|]. destruct (n =? na) eqn:E3; [apply Z.eqb_eq in E3; subst na|discriminate]. cbn [negb].
  destruct rc as [|t rc]; [discriminate|]. cbn [nth_error]. destruct (3 =? t) eqn:E4; [apply Z.eqb_eq in E4; subst t|discriminate]. cbn [negb].
  destruct (contiguous 0 (q_pos q)), (contiguous 2 (q_dens q)), (contiguous 4 (q_h q)), (contiguous 6 (q_cofm q)), (contiguous 5 (q_axis q)),
    (contiguous 1 (q_vel q)), (contiguous 3 (q_temp q)).
  destruct (q_nbins q <=? 0) eqn:B; [discriminate|]. apply Z.leb_gt in B. intros _. repeat split; auto. exists n, p, rc. repeat split; eexists; reflexivity.
Qed.

(** The trace of a call that returns. *)
Definition interp_trace (q : interp_call) (np nl : nat) (pos vel dens temp h axis cofm : obj) (e1 e2 e3 e4 e5 e6 e7 : event) : list event :=
  let ls := mkLines nl (q_values q) in
  (([e1; e2; e3; e4; e5] ++ build_reads axis cofm ls ++ (if q_tau q then [e6; e7] else [])) ++ [Create Output] ++
    loop_reads pos h axis cofm ls (q_visit q) np ++
    flat_map (line_accesses q pos vel dens temp h axis cofm) (seq 0 nl) ++
    [Incref Output; Decref Output] ++ (if q_tau q then [Decref vel; Decref temp] else []) ++
    [Decref pos; Decref dens; Decref h; Decref cofm; Decref axis]).

Lemma interp_accepted : forall q n p r, interp_types q -> 0 < q_nbins q ->
  a_shape (q_cofm q) = n :: 3 :: r -> first_dim (q_axis q) n -> first_dim (q_pos q) p -> first_dim (q_dens q) p -> first_dim (q_h q) p ->
  exists pos vel dens temp h axis cofm e1 e2 e3 e4 e5 e6 e7,
    contiguous 0 (q_pos q) = (pos, e1) /\ contiguous 2 (q_dens q) = (dens, e2) /\ contiguous 4 (q_h q) = (h, e3) /\
    contiguous 6 (q_cofm q) = (cofm, e4) /\ contiguous 5 (q_axis q) = (axis, e5) /\ contiguous 1 (q_vel q) = (vel, e6) /\ contiguous 3 (q_temp q) = (temp, e7) /\
    interpolate q = (interp_trace q (Z.to_nat p) (Z.to_nat n) pos vel dens temp h axis cofm e1 e2 e3 e4 e5 e6 e7, Returned).
Proof.
  intros q n p r (T1 & T2 & T3 & T4 & T5 & T6 & T7) B Sc (ra & Sa) (rp & Sp) (rd & Sd) (rh & Sh).
  destruct (contiguous 0 (q_pos q)) as [pos e1] eqn:C1, (contiguous 2 (q_dens q)) as [dens e2] eqn:C2, (contiguous 4 (q_h q)) as [h e3] eqn:C3,
    (contiguous 6 (q_cofm q)) as [cofm e4] eqn:C4, (contiguous 5 (q_axis q)) as [axis e5] eqn:C5, (contiguous 1 (q_vel q)) as [vel e6] eqn:C6,
    (contiguous 3 (q_temp q)) as [temp e7] eqn:C7.
  exists pos, vel, dens, temp, h, axis, cofm, e1, e2, e3, e4, e5, e6, e7. repeat (split; [reflexivity|]).
  unfold interpolate, dim.
  apply check_float_spec in T1, T2, T3, T4, T5. apply check_double_spec in T6. apply check_int_spec in T7.
  rewrite T1, T2, T3, T4, T5, T6, T7, Sc, Sa, Sp, Sd, Sh. cbn [orb nth_error]. rewrite !Z.eqb_refl. cbn [negb].
  rewrite C1, C2, C3, C4, C5, C6, C7. replace (q_nbins q <=? 0) with false by (symmetry; apply Z.leb_gt; exact B). reflexivity.
Qed.

Lemma interp_outcome_aux : forall q,
  (snd (interpolate q) = Returned <-> interp_types q /\ interp_lengths q /\ 0 < q_nbins q) /\
  (snd (interpolate q) = Raised TypeError <-> ~ interp_types q) /\
  (complete_dims q -> (snd (interpolate q) = Raised ValueError <-> interp_types q /\ ~ interp_lengths q)) /\
  (forall e, snd (interpolate q) = Raised e -> fst (interpolate q) = []).
Proof.
  intros q. split; [|split; [|split]].
  - split.
    + intros H. destruct (interpolate q) as [tr o] eqn:E. cbn in H. subst o. apply (interp_returned q tr E).
    + intros (T & (n & p & r & Sc & Sa & Sp & Sd & Sh) & B).
      destruct (interp_accepted q n p r T B Sc Sa Sp Sd Sh) as (? & ? & ? & ? & ? & ? & ? & ? & ? & ? & ? & ? & ? & ? & _ & _ & _ & _ & _ & _ & _ & ->). reflexivity.
  - unfold interpolate, interp_types, line_types.
    destruct (check_float (q_pos q)) eqn:T1; types; [cbn; tauto|]. destruct (check_float (q_vel q)) eqn:T2; types; [cbn; tauto|].
    destruct (check_float (q_dens q)) eqn:T3; types; [cbn; tauto|]. destruct (check_float (q_temp q)) eqn:T4; types; [cbn; tauto|].
    destruct (check_float (q_h q)) eqn:T5; types; [cbn; tauto|]. destruct (check_double (q_cofm q)) eqn:T6; types; [cbn; tauto|].
    destruct (check_int (q_axis q)) eqn:T7; types; [cbn; tauto|]. cbn [orb]. split; [|tauto].
    destruct (dim (q_cofm q) 0); [|discriminate]. destruct (dim (q_pos q) 0); [|discriminate]. destruct (dim (q_dens q) 0); [|discriminate].
    destruct (negb _); [discriminate|]. destruct (dim (q_h q) 0); [|discriminate]. destruct (negb _); [discriminate|].
    destruct (dim (q_axis q) 0); [|discriminate]. destruct (negb _); [discriminate|]. destruct (dim (q_cofm q) 1); [|discriminate]. destruct (negb _); [discriminate|].
    destruct (contiguous 0 _), (contiguous 2 _), (contiguous 4 _), (contiguous 6 _), (contiguous 5 _), (contiguous 1 _), (contiguous 3 _). destruct (q_nbins q <=? 0); discriminate.
  - intros (D1 & D2 & D3 & D4 & D5). unfold interpolate, interp_types, line_types, interp_lengths, first_dim, dim.
    destruct (check_float (q_pos q)) eqn:T1; types; [cbn; split; [discriminate|tauto]|]. destruct (check_float (q_vel q)) eqn:T2; types; [cbn; split; [discriminate|tauto]|].
    destruct (check_float (q_dens q)) eqn:T3; types; [cbn; split; [discriminate|tauto]|]. destruct (check_float (q_temp q)) eqn:T4; types; [cbn; split; [discriminate|tauto]|].
    destruct (check_float (q_h q)) eqn:T5; types; [cbn; split; [discriminate|tauto]|]. destruct (check_double (q_cofm q)) eqn:T6; types; [cbn; split; [discriminate|tauto]|].
    destruct (check_int (q_axis q)) eqn:T7; types; [cbn; split; [discriminate|tauto]|]. cbn [orb].
    destruct (a_shape (q_cofm q)) as [|n [|t rc]]; [cbn in D1; lia|cbn in D1; lia|]. destruct (a_shape (q_pos q)) as [|p rp]; [congruence|].
    destruct (a_shape (q_dens q)) as [|nd rd]; [congruence|]. destruct (a_shape (q_h q)) as [|nh rh]; [congruence|]. destruct (a_shape (q_axis q)) as [|na ra]; [congruence|].
    cbn [nth_error].
    destruct (p =? nd) eqn:E1; [apply Z.eqb_eq in E1; subst nd|apply Z.eqb_neq in E1]; cbn [negb].
    2:{ split; [|reflexivity]. intros _. split; [tauto|]. intros (? & ? & ? & _ & _ & (? & X1) & (? & X2) & _). injection X1. injection X2. congruence. }
    destruct (p =? nh) eqn:E2; [apply Z.eqb_eq in E2; subst nh|apply Z.eqb_neq in E2]; cbn [negb].
    2:{ split; [|reflexivity]. intros _. split; [tauto|]. intros (? & ? & ? & _ & _ & (? & X1) & _ & (? & X2)). injection X1. injection X2. congruence. }
    destruct (n =? na) eqn:E3; [apply Z.eqb_eq in E3; subst na|apply Z.eqb_neq in E3]; cbn [negb].
    2:{ split; [|reflexivity]. intros _. split; [tauto|]. intros (? & ? & ? & X1 & (? & X2) & _). injection X1. injection X2. congruence. }
    destruct (3 =? t) eqn:E4; [apply Z.eqb_eq in E4; subst t|apply Z.eqb_neq in E4]; cbn [negb].
    2:{ split; [|reflexivity]. intros _. split; [tauto|]. intros (? & ? & ? & X1 & _). injection X1. congruence. }
    destruct (contiguous 0 _), (contiguous 2 _), (contiguous 4 _), (contiguous 6 _), (contiguous 5 _), (contiguous 1 _), (contiguous 3 _).
    split; [destruct (q_nbins q <=? 0); discriminate|]. intros (_ & X). exfalso. apply X. exists n, p, rc. repeat split; eexists; reflexivity.
  - intros e. unfold interpolate.
    destruct (_ || _); [reflexivity|]. destruct (check_double _); [reflexivity|]. destruct (check_int _); [reflexivity|].
    destruct (dim (q_cofm q) 0); [|discriminate]. destruct (dim (q_pos q) 0); [|discriminate]. destruct (dim (q_dens q) 0); [|discriminate].
    destruct (negb _); [reflexivity|]. destruct (dim (q_h q) 0); [|discriminate]. destruct (negb _); [reflexivity|].
    destruct (dim (q_axis q) 0); [|discriminate]. destruct (negb _); [reflexivity|]. destruct (dim (q_cofm q) 1); [|discriminate]. destruct (negb _); [reflexivity|].
    destruct (contiguous 0 _), (contiguous 2 _), (contiguous 4 _), (contiguous 6 _), (contiguous 5 _), (contiguous 1 _), (contiguous 3 _). destruct (q_nbins q <=? 0); discriminate.
Qed.

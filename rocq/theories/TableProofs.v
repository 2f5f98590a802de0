(** Proofs about the parallel table interpolation. *)
From Coq Require Import List Bool Arith Lia Permutation.
From Verif Require Import IndexModel IndexProofs TableModel.
Import ListNotations.

Section Table.
Variable V : Type.
Variable eval : nat -> option V.
Variable junk : nat -> V.
Variable zero : V.

Lemma update_nth_nth : forall A (l : list A) k f j, nth_error (update_nth k f l) j =
  if Nat.eqb j k then option_map f (nth_error l j) else nth_error l j.
Proof.
  induction l as [|x l IH]; intros [|k] f [|j]; simpl; auto. destruct (Nat.eqb j k); reflexivity.
Qed.

Definition val (i : nat) : V := match eval i with None => junk i | Some v => v end.

(** Every result is still zero or already that of the particle. *)
Definition partial_results (n : nat) (res : list V) (waiting : nat -> Prop) : Prop :=
  length res = n /\
  forall i, i < n -> (nth_error res i = Some (val i)) \/ (nth_error res i = Some zero /\ waiting i).

Definition results_stored (t : thread) : list nat :=
  match t_point t, t_todo t with AtReport, _ :: rest => rest | _, todo => todo end.

(** ** All particles in range *)

Definition ok_state (n : nat) (st : state V) : Prop :=
  st_err st = false /\
  (forall k t i, nth_error (st_threads st) k = Some t -> In i (t_todo t) -> i < n) /\
  partial_results n (st_results st)
    (fun i => exists k t, nth_error (st_threads st) k = Some t /\ In i (results_stored t)).

Lemma in_range_step : forall n st k, (forall i, i < n -> eval i <> None) -> ok_state n st ->
  ok_state n (step eval junk st k).
Proof.
  intros n st k He (H1 & H2 & H3). unfold step.
  destruct (nth_error (st_threads st) k) as [[pt [|i rest]]|] eqn:Ek; try (split; [|split]; assumption).
  assert (Hi : i < n) by (apply (H2 k _ i Ek); left; reflexivity).
  assert (Hr : forall t', (forall j, In j (t_todo t') -> j = i \/ In j rest) ->
     forall k' t j, nth_error (update_nth k (fun _ => t') (st_threads st)) k' = Some t -> In j (t_todo t) -> j < n).
  { intros t' Ht k' t j Hn Hj. rewrite update_nth_nth in Hn. destruct (Nat.eqb_spec k' k).
    - subst k'. rewrite Ek in Hn. injection Hn as <-. destruct (Ht j Hj) as [->|Hin]; [assumption|].
      apply (H2 k _ j Ek). right. assumption.
    - apply (H2 k' t j Hn Hj). }
  destruct H3 as (Hlen & Hp).
  assert (Keep : forall t', (forall j, In j (results_stored (mkThread pt (i :: rest))) -> In j (results_stored t')) ->
     partial_results n (st_results st)
       (fun j => exists k0 t, nth_error (update_nth k (fun _ => t') (st_threads st)) k0 = Some t /\ In j (results_stored t))).
  { intros t' Ht. split; [assumption|]. intros j Hj. destruct (Hp j Hj) as [|(Z & k0 & t & Hn & Hin)]; [left; assumption|].
    right. split; [assumption|]. destruct (Nat.eq_dec k0 k) as [->|Hne].
    - exists k, t'. rewrite update_nth_nth, Nat.eqb_refl, Ek. split; [reflexivity|].
      apply Ht. rewrite Ek in Hn. injection Hn as <-. assumption.
    - exists k0, t. rewrite update_nth_nth. apply Nat.eqb_neq in Hne. rewrite Hne. split; assumption. }
  destruct pt.
  - rewrite H1. split; [reflexivity|]. split; [apply Hr; intros j [<-|Hj]; auto|apply Keep; auto].
  - pose proof (He i Hi). destruct (eval i); [|congruence].
    split; [reflexivity|]. split; [apply Hr; intros j [<-|Hj]; auto|apply Keep; auto].
  - split; [assumption|]. split; [apply Hr; intros j [<-|Hj]; auto|]. cbn [st_results].
    split; [rewrite update_nth_length; assumption|]. intros j Hj. rewrite update_nth_nth.
    destruct (Nat.eqb_spec j i) as [->|Hne].
    + left. destruct (nth_error (st_results st) i) eqn:En; [reflexivity|]. apply nth_error_None in En. lia.
    + destruct (Hp j Hj) as [|(Z & k0 & t & Hn & Hin)]; [left; assumption|]. right. split; [assumption|].
      cbn [st_threads]. destruct (Nat.eq_dec k0 k) as [->|Hne'].
      * exists k, (mkThread AtReport (i :: rest)). rewrite update_nth_nth, Nat.eqb_refl, Ek. split; [reflexivity|].
        rewrite Ek in Hn. injection Hn as <-. destruct Hin as [->|Hin]; [congruence|]. assumption.
      * exists k0, t. rewrite update_nth_nth. apply Nat.eqb_neq in Hne'. rewrite Hne'. split; assumption.
  - split; [assumption|]. split; [apply Hr; intros j Hj; auto|apply Keep; auto].
Qed.

Lemma in_range_run : forall n sched st, (forall i, i < n -> eval i <> None) -> ok_state n st ->
  ok_state n (run eval junk sched st).
Proof.
  intros n sched. unfold run. induction sched as [|k sched IH]; intros st He H; [assumption|].
  apply IH; [assumption|]. apply in_range_step; assumption.
Qed.

Lemma start_ok : forall n parts, Permutation (concat parts) (seq 0 n) -> ok_state n (start zero n parts).
Proof.
  intros n parts P. split; [reflexivity|]. split.
  - intros k t i Hk Hi. unfold start in Hk. cbn [st_threads] in Hk. rewrite nth_error_map in Hk.
    destruct (nth_error parts k) as [p|] eqn:Ep; [|discriminate]. injection Hk as <-. cbn [t_todo] in Hi.
    assert (In i (concat parts)) by (apply in_concat; exists p; split; [eapply nth_error_In; eauto|assumption]).
    apply (Permutation_in _ P) in H. apply in_seq in H. lia.
  - split; [apply repeat_length|]. intros i Hi. right. split; [apply nth_error_repeat; assumption|].
    assert (In i (concat parts)) by (apply (Permutation_in _ (Permutation_sym P)), in_seq; lia).
    apply in_concat in H. destruct H as (p & Hp & Hin). apply In_nth_error in Hp. destruct Hp as (k & Hk).
    exists k, (mkThread AtCheck p). split; [|assumption]. unfold start. cbn [st_threads].
    rewrite nth_error_map, Hk. reflexivity.
Qed.

Lemma C17_in_range_aux : forall n parts sched, Permutation (concat parts) (seq 0 n) ->
  (forall i, i < n -> eval i <> None) ->
  finished (run eval junk sched (start zero n parts)) ->
  exists out, answer (run eval junk sched (start zero n parts)) = Some out /\
    length out = n /\ forall i, i < n -> nth_error out i = eval i.
Proof.
  intros n parts sched P He Hf.
  destruct (in_range_run n sched _ He (start_ok n parts P)) as (H1 & H2 & H3 & H4).
  unfold answer. rewrite H1. eexists. split; [reflexivity|]. split; [assumption|]. intros i Hi.
  destruct (H4 i Hi) as [->|(_ & k & t & Hk & Hin)].
  - unfold val. specialize (He i Hi). destruct (eval i); congruence.
  - exfalso. unfold finished in Hf. rewrite Forall_forall in Hf. specialize (Hf t (nth_error_In _ _ Hk)).
    unfold results_stored in Hin. rewrite Hf in Hin. destruct (t_point t); contradiction.
Qed.

(** ** No false alarm *)

Lemma C17_no_false_alarm_aux : forall n parts sched, Permutation (concat parts) (seq 0 n) ->
  finished (run eval junk sched (start zero n parts)) ->
  answer (run eval junk sched (start zero n parts)) = None -> exists i, i < n /\ eval i = None.
Proof.
  intros n parts sched P Hf Ha.
  assert (Dec : (exists i, i < n /\ eval i = None) \/ (forall i, i < n -> eval i <> None)).
  { clear. induction n as [|n IH]; [right; intros; lia|].
    destruct IH as [(i & Hi & E)|H]; [left; exists i; split; [lia|assumption]|].
    destruct (eval n) eqn:En.
    - right. intros i Hi. destruct (Nat.eq_dec i n); [subst; congruence|apply H; lia].
    - left. exists n. split; [lia|assumption]. }
  destruct Dec as [|He]; [assumption|].
  destruct (C17_in_range_aux n parts sched P He Hf) as (out & E & _). congruence.
Qed.

(** ** One thread *)

Definition seq_state (n : nat) (order : list nat) (st : state V) : Prop :=
  exists pre pt todo, st_threads st = [mkThread pt todo] /\ order = pre ++ todo /\
    length (st_results st) = n /\ (todo = [] -> pt = AtCheck) /\
    match pt with
    | AtCheck => (st_err st = false /\ (forall i, In i pre -> eval i <> None)) \/
                 (st_err st = true /\ exists i, In i pre /\ eval i = None)
    | AtStore => st_err st = false /\ (forall i, In i pre -> eval i <> None)
    | _ => (forall i, In i pre -> eval i <> None) /\
           forall i rest, todo = i :: rest -> (st_err st = true <-> eval i = None)
    end.

Lemma seq_step : forall n order st, seq_state n order st -> seq_state n order (step eval junk st 0).
Proof.
  intros n order st (pre & pt & todo & Ht & Ho & Hl & Hn & H). unfold step. rewrite Ht. cbn [nth_error].
  destruct todo as [|i rest].
  { exists pre, pt, []. repeat (split; [assumption|]). assumption. }
  cbn [update_nth]. destruct pt.
  - destruct H as [(He & Hp)|(He & Hx)]; rewrite He.
    + exists pre, AtStore, (i :: rest). cbn [st_threads st_results st_err].
      repeat (split; [reflexivity || assumption || (intros; discriminate)|]). assumption.
    + exists (pre ++ [i]), AtCheck, rest. cbn [st_threads st_results st_err].
      split; [reflexivity|]. split; [rewrite <- app_assoc; assumption|]. split; [assumption|]. split; [reflexivity|].
      right. split; [reflexivity|]. destruct Hx as (j & Hj & Ej). exists j. split; [apply in_app_iff; auto|assumption].
  - exists pre, AtResult, (i :: rest). cbn [st_threads st_results st_err].
    repeat (split; [reflexivity || assumption || (intros; discriminate)|]). split; [apply H|].
    intros i' rest' E. injection E as <- <-. destruct (eval i); split; congruence.
  - exists pre, AtReport, (i :: rest). cbn [st_threads st_results st_err].
    split; [reflexivity|]. split; [assumption|]. split; [rewrite update_nth_length; assumption|].
    split; [intros; discriminate|]. assumption.
  - exists (pre ++ [i]), AtCheck, rest. cbn [st_threads st_results st_err].
    split; [reflexivity|]. split; [rewrite <- app_assoc; assumption|]. split; [assumption|]. split; [reflexivity|].
    destruct H as (Hp & He). specialize (He i rest eq_refl). destruct (st_err st).
    + right. split; [reflexivity|]. exists i. split; [apply in_app_iff; simpl; auto|]. apply He. reflexivity.
    + left. split; [reflexivity|]. intros j Hj. apply in_app_iff in Hj. destruct Hj as [Hj|[<-|[]]]; [apply Hp; assumption|].
      intros C. apply He in C. discriminate.
Qed.

Lemma other_step : forall st k, length (st_threads st) = 1 -> k <> 0 -> step eval junk st k = st.
Proof.
  intros st k H Hk. unfold step. destruct (nth_error (st_threads st) k) eqn:E; [|reflexivity].
  assert (k < 1) by (rewrite <- H; apply nth_error_Some; congruence). lia.
Qed.

Lemma seq_run : forall n order sched st, seq_state n order st -> seq_state n order (run eval junk sched st).
Proof.
  intros n order sched. unfold run. induction sched as [|k sched IH]; intros st H; [assumption|].
  apply IH. destruct (Nat.eq_dec k 0) as [->|Hk]; [apply seq_step; assumption|].
  rewrite other_step; [assumption| |assumption]. destruct H as (pre & pt & todo & -> & _). reflexivity.
Qed.

Lemma C17_sequential_aux : forall n order sched, Permutation order (seq 0 n) ->
  finished (run eval junk sched (start zero n [order])) ->
  (answer (run eval junk sched (start zero n [order])) = None <-> exists i, i < n /\ eval i = None).
Proof.
  intros n order sched P Hf.
  assert (P' : Permutation (concat [order]) (seq 0 n)) by (simpl; rewrite app_nil_r; assumption).
  split; [apply C17_no_false_alarm_aux; assumption|].
  intros (i & Hi & Ei).
  destruct (seq_run n order sched (start zero n [order])) as (pre & pt & todo & Ht & Ho & Hl & Hn & H).
  { exists [], AtCheck, order. unfold start. cbn [st_threads st_results st_err map].
    repeat (split; [reflexivity || apply repeat_length|]). left. split; [reflexivity|]. intros j []. }
  unfold finished in Hf. rewrite Ht in Hf. inversion Hf as [|? ? Hx]; subst. cbn [t_todo] in Hx. subst todo.
  rewrite (Hn eq_refl) in H. rewrite app_nil_r in P. unfold answer.
  destruct H as [(_ & Hp)|(-> & _)]; [|reflexivity]. exfalso. apply (Hp i); [|assumption].
  apply (Permutation_in _ (Permutation_sym P)), in_seq. lia.
Qed.

(** ** Every thread finishes when it is given enough turns *)

Definition left_over (t : thread) : nat :=
  match t_todo t with
  | [] => 0
  | _ :: rest => 4 * length rest + match t_point t with AtCheck => 4 | AtStore => 3 | AtResult => 2 | AtReport => 1 end
  end.

Lemma step_thread : forall st k t, nth_error (st_threads st) k = Some t ->
  exists t', nth_error (st_threads (step eval junk st k)) k = Some t' /\
    (left_over t' <= left_over t - 1) /\
    (forall j, j <> k -> nth_error (st_threads (step eval junk st k)) j = nth_error (st_threads st) j) /\
    length (st_threads (step eval junk st k)) = length (st_threads st).
Proof.
  intros st k t Hk. unfold step. rewrite Hk. destruct t as [pt [|i rest]].
  - exists (mkThread pt []). split; [assumption|]. split; [unfold left_over; simpl; lia|]. split; [reflexivity|reflexivity].
  - assert (G : forall t' e r, left_over t' <= left_over (mkThread pt (i :: rest)) - 1 ->
      let st' := mkState e r (update_nth k (fun _ => t') (st_threads st)) : state V in
      exists t'', nth_error (st_threads st') k = Some t'' /\ left_over t'' <= left_over (mkThread pt (i :: rest)) - 1 /\
        (forall j, j <> k -> nth_error (st_threads st') j = nth_error (st_threads st) j) /\
        length (st_threads st') = length (st_threads st)).
    { intros t' e r Hl st'. exists t'. unfold st'. cbn [st_threads]. rewrite update_nth_nth, Nat.eqb_refl, Hk.
      split; [reflexivity|]. split; [assumption|]. split; [|apply update_nth_length].
      intros j Hj. rewrite update_nth_nth. apply Nat.eqb_neq in Hj. rewrite Hj. reflexivity. }
    unfold left_over in G |- *. cbn [t_todo t_point] in G |- *.
    destruct pt; [destruct (st_err st)| | |]; apply G; cbn [t_todo t_point]; try lia;
      destruct rest; cbn [length]; lia.
Qed.

Lemma turns : forall m st k t, nth_error (st_threads st) k = Some t -> left_over t <= m ->
  exists t', nth_error (st_threads (run eval junk (repeat k m) st)) k = Some t' /\ t_todo t' = [] /\
    (forall j, j <> k -> nth_error (st_threads (run eval junk (repeat k m) st)) j = nth_error (st_threads st) j) /\
    length (st_threads (run eval junk (repeat k m) st)) = length (st_threads st).
Proof.
  induction m as [|m IH]; intros st k t Hk Hm.
  - exists t. split; [assumption|]. split; [|split; reflexivity].
    unfold left_over in Hm. destruct (t_todo t); [reflexivity|]. exfalso. destruct (t_point t); lia.
  - destruct (step_thread st k t Hk) as (t1 & E1 & L1 & O1 & N1).
    destruct (IH (step eval junk st k) k t1 E1 ltac:(lia)) as (t2 & E2 & T2 & O2 & N2).
    exists t2. unfold run in *. cbn [repeat fold_left]. split; [assumption|]. split; [assumption|].
    split; [|congruence]. intros j Hj. rewrite O2 by assumption. apply O1. assumption.
Qed.

Lemma run_app : forall s1 s2 st, run eval junk (s1 ++ s2) st = run eval junk s2 (run eval junk s1 st).
Proof. intros. unfold run. apply fold_left_app. Qed.

Lemma C17_can_finish_aux : forall st, exists sched, finished (run eval junk sched st).
Proof.
  intros st.
  assert (G : forall m, m <= length (st_threads st) -> exists sched,
     length (st_threads (run eval junk sched st)) = length (st_threads st) /\
     forall k t, nth_error (st_threads (run eval junk sched st)) k = Some t -> k < m -> t_todo t = []).
  { induction m as [|m IH]; intros Hm.
    - exists []. split; [reflexivity|]. intros; lia.
    - destruct IH as (sched & L & H); [lia|].
      destruct (nth_error (st_threads (run eval junk sched st)) m) as [t|] eqn:Et.
      + destruct (turns (left_over t) _ m t Et (le_n _)) as (t' & E' & T' & O' & L').
        exists (sched ++ repeat m (left_over t)). rewrite run_app. split; [congruence|].
        intros k t0 Hk Hlt. destruct (Nat.eq_dec k m) as [->|Hne].
        * rewrite E' in Hk. injection Hk as <-. assumption.
        * rewrite O' in Hk by assumption. apply (H k t0 Hk). lia.
      + apply nth_error_None in Et. lia. }
  destruct (G _ (le_n _)) as (sched & L & H). exists sched. apply Forall_forall. intros t Hin.
  apply In_nth_error in Hin. destruct Hin as (k & Hk). apply (H k t Hk).
  rewrite <- L. apply nth_error_Some. congruence.
Qed.

(** ** The race *)

(** Running thread 0 alone to its end: it evaluates up to its first particle out of range. *)
Lemma alone_first : forall pre bad post res pt1 l1, (forall i, In i pre -> eval i <> None) -> eval bad = None ->
  exists m res', run eval junk (repeat 0 m) (mkState false res [mkThread AtCheck (pre ++ bad :: post); mkThread pt1 l1]) =
    mkState true res' [mkThread AtCheck []; mkThread pt1 l1] /\ length res' = length res /\
    forall j, ~ In j (pre ++ [bad]) -> nth_error res' j = nth_error res j.
Proof.
  assert (Skip : forall todo res pt1 l1, exists m, run eval junk (repeat 0 m) (mkState true res [mkThread AtCheck todo; mkThread pt1 l1]) =
     mkState true res [mkThread AtCheck []; mkThread pt1 l1]).
  { induction todo as [|i todo IH]; intros res pt1 l1; [exists 0; reflexivity|].
    destruct (IH res pt1 l1) as (m & E). exists (S m). unfold run in *. cbn [repeat fold_left]. unfold step at 2.
    cbn [st_threads nth_error st_err st_results update_nth]. exact E. }
  induction pre as [|i pre IH]; intros bad post res pt1 l1 Hp Hb; cbn [app].
  - set (res1 := update_nth bad (fun _ => match eval bad with None => junk bad | Some v => v end) res).
    assert (F : run eval junk (repeat 0 4) (mkState false res [mkThread AtCheck (bad :: post); mkThread pt1 l1]) =
       mkState (match eval bad with None => true | _ => false end) res1 [mkThread AtCheck post; mkThread pt1 l1]) by reflexivity.
    rewrite Hb in F. destruct (Skip post res1 pt1 l1) as (m & E). exists (4 + m), res1.
    rewrite repeat_app, run_app, F. split; [exact E|]. split; [apply update_nth_length|].
    intros j Hj. unfold res1. rewrite update_nth_nth. destruct (Nat.eqb_spec j bad) as [->|]; [|reflexivity].
    exfalso. apply Hj. left. reflexivity.
  - set (res1 := update_nth i (fun _ => match eval i with None => junk i | Some v => v end) res).
    assert (F : run eval junk (repeat 0 4) (mkState false res [mkThread AtCheck (i :: pre ++ bad :: post); mkThread pt1 l1]) =
       mkState (match eval i with None => true | _ => false end) res1 [mkThread AtCheck (pre ++ bad :: post); mkThread pt1 l1]) by reflexivity.
    pose proof (Hp i (or_introl eq_refl)) as Hi. destruct (eval i) as [v|] eqn:Ei; [|congruence].
    destruct (IH bad post res1 pt1 l1) as (m & res' & E & L & K); [intros j Hj; apply Hp; right; assumption|assumption|].
    exists (4 + m), res'. rewrite repeat_app, run_app, F. split; [exact E|].
    split; [rewrite L; apply update_nth_length|]. intros j Hj. rewrite K.
    + unfold res1. rewrite update_nth_nth. destruct (Nat.eqb_spec j i) as [->|]; [|reflexivity].
      exfalso. apply Hj. left. reflexivity.
    + intros C. apply Hj. right. assumption.
Qed.

(** Running thread 1 alone up to the check of its last particle. *)
Lemma alone_second : forall todo last res l0, (forall i, In i todo -> eval i <> None) ->
  exists m res', run eval junk (repeat 1 m) (mkState false res [mkThread AtCheck l0; mkThread AtCheck (todo ++ [last])]) =
    mkState false res' [mkThread AtCheck l0; mkThread AtCheck [last]] /\ length res' = length res /\
    forall j, ~ In j todo -> nth_error res' j = nth_error res j.
Proof.
  induction todo as [|i todo IH]; intros last res l0 H.
  - exists 0, res. repeat split.
  - set (res1 := update_nth i (fun _ => match eval i with None => junk i | Some v => v end) res).
    assert (F : run eval junk (repeat 1 4) (mkState false res [mkThread AtCheck l0; mkThread AtCheck ((i :: todo) ++ [last])]) =
       mkState (match eval i with None => true | _ => false end) res1 [mkThread AtCheck l0; mkThread AtCheck (todo ++ [last])]) by reflexivity.
    pose proof (H i (or_introl eq_refl)) as Hi. destruct (eval i) as [v|] eqn:Ei; [|congruence].
    destruct (IH last res1 l0) as (m & res' & E & L & K). { intros j Hj. apply H. right. assumption. }
    exists (4 + m), res'. rewrite repeat_app, run_app, F. split; [exact E|].
    split; [rewrite L; apply update_nth_length|]. intros j Hj. rewrite K.
    + unfold res1. rewrite update_nth_nth. destruct (Nat.eqb_spec j i) as [->|]; [|reflexivity].
      exfalso. apply Hj. left. reflexivity.
    + intros C. apply Hj. right. assumption.
Qed.

Lemma C17_race_aux : forall n pre bad post part1 last,
  Permutation ((pre ++ bad :: post) ++ part1 ++ [last]) (seq 0 n) ->
  (forall i, In i (pre ++ part1 ++ [last]) -> eval i <> None) -> eval bad = None ->
  exists sched out, finished (run eval junk sched (start zero n [pre ++ bad :: post; part1 ++ [last]])) /\
    answer (run eval junk sched (start zero n [pre ++ bad :: post; part1 ++ [last]])) = Some out /\ length out = n /\
    forall j, In j post -> nth_error out j = Some zero.
Proof.
  intros n pre bad post part1 last P H Hb.
  destruct (alone_second part1 last (repeat zero n) (pre ++ bad :: post)) as (m1 & r1 & E1 & L1 & K1).
  { intros i Hi. apply H. rewrite !in_app_iff. auto. }
  destruct (alone_first pre bad post r1 AtStore [last]) as (m2 & r2 & E2 & L2 & K2); [|assumption|].
  { intros i Hi. apply H. rewrite !in_app_iff. auto. }
  assert (Hv : exists v, eval last = Some v).
  { assert (N : eval last <> None) by (apply H; rewrite !in_app_iff; simpl; auto).
    destruct (eval last) as [v|]; [exists v; reflexivity|congruence]. }
  destruct Hv as (v & Hl).
  exists (repeat 1 m1 ++ [1] ++ repeat 0 m2 ++ [1; 1; 1]).
  exists (update_nth last (fun _ => v) r2).
  assert (E : run eval junk (repeat 1 m1 ++ [1] ++ repeat 0 m2 ++ [1; 1; 1]) (start zero n [pre ++ bad :: post; part1 ++ [last]]) =
     mkState false (update_nth last (fun _ => v) r2) [mkThread AtCheck []; mkThread AtCheck []]).
  { rewrite !run_app. unfold start. cbn [map]. rewrite E1.
    change (run eval junk [1] (mkState false r1 [mkThread AtCheck (pre ++ bad :: post); mkThread AtCheck [last]])) with
      (mkState false r1 [mkThread AtCheck (pre ++ bad :: post); mkThread AtStore [last]] : state V).
    rewrite E2. unfold run. cbn [fold_left]. unfold step. cbn [st_threads nth_error st_err st_results update_nth].
    rewrite Hl. reflexivity. }
  rewrite E. split; [repeat constructor|]. split; [reflexivity|].
  split; [rewrite update_nth_length, L2, L1; apply repeat_length|].
  intros j Hj.
  assert (ND : NoDup ((pre ++ bad :: post) ++ part1 ++ [last])) by (apply (Permutation_NoDup (Permutation_sym P)), seq_NoDup).
  assert (Hjn : j < n).
  { assert (In j (seq 0 n)) by (apply (Permutation_in _ P); rewrite !in_app_iff; simpl; auto). apply in_seq in H0. lia. }
  assert (A1 : ~ In j (part1 ++ [last])).
  { intros C. rewrite <- app_assoc in ND.
    assert (R : forall l l' : list nat, NoDup (l ++ l') -> NoDup l') by
      (clear; induction l as [|x l IH]; intros l' H; [assumption|inversion H; subst; apply IH; assumption]).
    apply R in ND. cbn [app] in ND. inversion ND as [|x l Hx ND']; subst.
    clear -C ND' Hj. induction post as [|p post IH]; [contradiction|]. cbn [app] in ND'. inversion ND'; subst.
    destruct Hj as [->|Hj]; [apply H1, in_app_iff; auto|apply IH; assumption]. }
  assert (A2 : ~ In j (pre ++ [bad])).
  { intros C. replace ((pre ++ bad :: post) ++ part1 ++ [last]) with ((pre ++ [bad]) ++ post ++ part1 ++ [last]) in ND
      by (rewrite <- !app_assoc; reflexivity).
    revert C ND. generalize (pre ++ [bad]). intros l. induction l as [|p l IH]; intros C ND; [contradiction|].
    cbn [app] in ND. inversion ND; subst. destruct C as [->|C]; [|apply IH; assumption].
    apply H2. rewrite !in_app_iff. auto. }
  cbn [st_results]. rewrite update_nth_nth. destruct (Nat.eqb_spec j last) as [->|].
  { exfalso. apply A1. apply in_app_iff. right. left. reflexivity. }
  rewrite K2 by assumption. rewrite K1 by (intros C; apply A1, in_app_iff; auto).
  apply nth_error_repeat. assumption.
Qed.

End Table.

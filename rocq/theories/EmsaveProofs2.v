(** Proofs about several processes saving at once. *)
From Coq Require Import List Bool Lia Arith.
From Verif Require Import StoreModel StoreSpec EmsaveModel EmsaveSpec.
Import ListNotations.

Local Notation cnt sched r := (count_occ Nat.eq_dec sched r).

(** ** Schedules, extended at the end *)
Lemma at_step_snoc : forall sched x r n t, at_step (sched ++ [x]) r n t <->
  at_step sched r n t \/ (t = length sched /\ r = x /\ S (cnt sched x) = n).
Proof.
  intros sched x r n t. unfold at_step. destruct (Nat.lt_trichotomy t (length sched)) as [L|[->|L]].
  - rewrite nth_error_app1 by assumption. rewrite firstn_app. replace (t - length sched) with 0 by lia. cbn [firstn]. rewrite app_nil_r.
    split; [left; assumption|]. intros [C|(-> & _)]; [assumption|lia].
  - rewrite nth_error_app2 by lia. rewrite Nat.sub_diag. cbn [nth_error]. rewrite firstn_app, Nat.sub_diag. cbn [firstn]. rewrite app_nil_r, firstn_all.
    split.
    + intros (E & C). injection E as <-. right. auto.
    + intros [(E & C)|(_ & -> & C)]; [exfalso; assert (length sched < length sched) by (apply nth_error_Some; congruence); lia|]. split; [reflexivity|assumption].
  - split.
    + intros (E & _). exfalso. assert (t < length (sched ++ [x])) by (apply nth_error_Some; congruence). rewrite app_length in *. cbn in *. lia.
    + intros [(E & _)|(-> & _)]; [|lia]. exfalso. assert (t < length sched) by (apply nth_error_Some; congruence). lia.
Qed.

Lemma cnt_snoc : forall sched x r, cnt (sched ++ [x]) r = cnt sched r + (if Nat.eq_dec x r then 1 else 0).
Proof. intros. rewrite count_occ_app. cbn. destruct (Nat.eq_dec x r); lia. Qed.

Lemma at_step_bound : forall sched r n t, at_step sched r n t -> t < length sched /\ 1 <= n <= cnt sched r.
Proof.
  intros sched r n t (E & C). assert (L : t < length sched) by (apply nth_error_Some; congruence). split; [assumption|].
  assert (X : sched = firstn t sched ++ r :: skipn (S t) sched).
  { clear C L. revert t E. induction sched as [|y sched IH]; intros [|t] E; try discriminate; cbn in *; [injection E as <-; reflexivity|].
    rewrite <- (IH t E). reflexivity. }
  rewrite X, count_occ_app. cbn. destruct (Nat.eq_dec r r); [|contradiction]. lia.
Qed.

Lemma at_step_exists : forall sched r n, 1 <= n <= cnt sched r -> exists t, at_step sched r n t.
Proof.
  induction sched as [|x sched IH] using rev_ind; intros r n Hn; [cbn in Hn; lia|].
  rewrite cnt_snoc in Hn. destruct (Nat.le_gt_cases n (cnt sched r)) as [L|L].
  - destruct (IH r n) as (t & At); [lia|]. exists t. apply at_step_snoc. left. assumption.
  - destruct (Nat.eq_dec x r) as [<-|]; [|lia]. exists (length sched). apply at_step_snoc. right. repeat split; lia.
Qed.

(** Some process has made its n-th step. *)
Definition some (sched : list nat) (n : nat) : Prop := exists r t, at_step sched r n t.

Lemma some_snoc : forall sched x n, some (sched ++ [x]) n <-> some sched n \/ S (cnt sched x) = n.
Proof.
  intros sched x n. unfold some. split.
  - intros (r & t & At). apply at_step_snoc in At. destruct At as [At|(_ & _ & E)]; [left; eauto|right; assumption].
  - intros [(r & t & At)|E]; [exists r, t; apply at_step_snoc; left; assumption|]. exists x, (length sched). apply at_step_snoc. right. auto.
Qed.

Lemma some_before_snoc : forall sched x n t, t <= length sched -> (some_before (sched ++ [x]) n t <-> some_before sched n t).
Proof.
  intros sched x n t L. unfold some_before. split; intros (r & t' & At & Lt); exists r, t'; (split; [|assumption]).
  - apply at_step_snoc in At. destruct At as [At|(E & _)]; [assumption|lia].
  - apply at_step_snoc. left. assumption.
Qed.

Lemma some_before_all : forall sched n, some_before sched n (length sched) <-> some sched n.
Proof.
  intros sched n. unfold some_before, some. split.
  - intros (r & t & At & _). eauto.
  - intros (r & t & At). exists r, t. split; [assumption|]. apply (at_step_bound _ _ _ _ At).
Qed.

(** Process r saw a save file. *)
Definition seen (sched : list nat) (r : nat) : Prop :=
  exists t1, at_step sched r 1 t1 /\ (~ some_before sched 2 t1 \/ some_before sched 3 t1).

Lemma seen_snoc : forall sched x r, seen (sched ++ [x]) r <->
  seen sched r \/ (x = r /\ cnt sched r = 0 /\ (~ some sched 2 \/ some sched 3)).
Proof.
  intros sched x r. unfold seen. split.
  - intros (t1 & At & C). apply at_step_snoc in At. destruct At as [At|(-> & -> & E)].
    + pose proof (at_step_bound _ _ _ _ At) as (L & _). rewrite !some_before_snoc in C by lia. left. exists t1. auto.
    + rewrite !some_before_snoc, !some_before_all in C by lia. right. repeat split; [lia|assumption].
  - intros [(t1 & At & C)|(-> & E & C)].
    + pose proof (at_step_bound _ _ _ _ At) as (L & _). exists t1. rewrite !some_before_snoc by lia. split; [apply at_step_snoc; left; assumption|assumption].
    + exists (length sched). rewrite !some_before_snoc, !some_before_all by lia. split; [apply at_step_snoc; right; repeat split; lia|assumption].
Qed.

Lemma overtakes_seen : forall sched, overtakes sched <-> exists r t2, at_step sched r 2 t2 /\ some_before sched 3 t2 /\ seen sched r.
Proof.
  intros sched. unfold overtakes, seen. split.
  - intros (r & t1 & t2 & A1 & A2 & B & C). exists r, t2. eauto.
  - intros (r & t2 & A2 & B & t1 & A1 & C). exists r, t1, t2. auto.
Qed.

Lemma overtakes_snoc : forall sched x, overtakes (sched ++ [x]) <->
  overtakes sched \/ (cnt sched x = 1 /\ some sched 3 /\ seen sched x).
Proof.
  intros sched x. rewrite !overtakes_seen. split.
  - intros (r & t2 & A2 & B & C). apply at_step_snoc in A2. destruct A2 as [A2|(-> & -> & E)].
    + pose proof (at_step_bound _ _ _ _ A2) as (L & L2). rewrite some_before_snoc in B by lia. left. exists r, t2. split; [assumption|]. split; [assumption|].
      apply seen_snoc in C. destruct C as [C|(_ & E & _)]; [assumption|lia].
    + rewrite some_before_snoc, some_before_all in B by lia. right. split; [lia|]. split; [assumption|].
      apply seen_snoc in C. destruct C as [C|(_ & E' & _)]; [assumption|lia].
  - intros [(r & t2 & A2 & B & C)|(E & B & C)].
    + pose proof (at_step_bound _ _ _ _ A2) as (L & L2). exists r, t2. rewrite some_before_snoc by lia. split; [apply at_step_snoc; left; assumption|].
      split; [assumption|]. apply seen_snoc. left. assumption.
    + exists x, (length sched). rewrite some_before_snoc, some_before_all by lia. split; [apply at_step_snoc; right; repeat split; lia|].
      split; [assumption|]. apply seen_snoc. left. assumption.
Qed.

Lemma some_32 : forall sched, some sched 3 -> some sched 2.
Proof.
  intros sched (r & t & At). pose proof (at_step_bound _ _ _ _ At) as (_ & L). destruct (at_step_exists sched r 2) as (t' & At'); [lia|]. exists r, t'. assumption.
Qed.
Lemma some_count : forall sched n, some sched n <-> exists r, 1 <= n <= cnt sched r.
Proof.
  intros sched n. split.
  - intros (r & t & At). exists r. apply (at_step_bound _ _ _ _ At).
  - intros (r & L). destruct (at_step_exists sched r n L) as (t & At). exists r, t. assumption.
Qed.

(** ** The invariant *)
Section Ranks.
Variables (X : Type) (new : nat -> X) (old : X) (b : option (body X)).

Lemma put_same : forall (V : Type) (f : nat -> V) k v, put f k v k = v.
Proof. intros. unfold put. rewrite Nat.eqb_refl. reflexivity. Qed.
Lemma put_other : forall (V : Type) (f : nat -> V) k v k', k' <> k -> put f k v k' = f k'.
Proof. intros V f k v k' N. unfold put. apply Nat.eqb_neq in N. rewrite N. reflexivity. Qed.

Record basics (sched : list nat) (s : shared X) : Prop := {
  b_prog : forall r, progress s r = Nat.min (cnt sched r) 4;
  b_next : 2 <= next_file s;
  b_old : body_of s 0 = Whole old;
  b_others : (forall r, new r <> old) -> forall k, 2 <= k -> body_of s k <> Whole old;
  b_handles : forall r k, In (r, k) (handles s) -> 2 <= k }.

Definition safe (sched : list nat) (s : shared X) : Prop :=
  ((~ some sched 2 /\ ~ some sched 3 /\ main_name s = Some 0) \/
   (some sched 2 /\ ~ some sched 3 /\ main_name s = None /\ backup_name s = Some 0) \/
   (some sched 2 /\ some sched 3 /\ (exists k, 2 <= k /\ main_name s = Some k) /\ backup_name s = Some 0)) /\
  (forall r, 1 <= cnt sched r -> (saw s r = true <-> seen sched r)).
Definition gone (sched : list nat) (s : shared X) : Prop :=
  some sched 2 /\ some sched 3 /\ (forall k, main_name s = Some k -> 2 <= k) /\ (exists k, 2 <= k /\ backup_name s = Some k).

Definition Inv (sched : list nat) (s : shared X) : Prop :=
  basics sched s /\ ((~ overtakes sched /\ safe sched s) \/ (overtakes sched /\ gone sched s)).

Lemma not_nil : forall n, ~ some [] n.
Proof. intros n (r & t & (E & _)). destruct t; discriminate. Qed.

Lemma Inv_start : Inv [] (before old b).
Proof.
  split.
  - constructor; cbn.
    + reflexivity.
    + lia.
    + reflexivity.
    + intros _ [|[|k]] Hk; [lia|lia|discriminate].
    + intros r k [].
  - left. split.
    + intros (r & t1 & t2 & (E & _) & _). destruct t1; discriminate.
    + split; [left|intros r C; cbn in C; lia]. split; [apply not_nil|]. split; [apply not_nil|reflexivity].
Qed.

Lemma saw_keep : forall sched x (w w' : nat -> bool), cnt sched x <> 0 -> (forall r, w' r = w r) ->
  (forall r, 1 <= cnt sched r -> (w r = true <-> seen sched r)) -> forall r, 1 <= cnt (sched ++ [x]) r -> (w' r = true <-> seen (sched ++ [x]) r).
Proof.
  intros sched x w w' Nx Ew Hw r Hr. rewrite Ew, seen_snoc. rewrite cnt_snoc in Hr.
  assert (1 <= cnt sched r) by (destruct (Nat.eq_dec x r) as [<-|]; lia).
  rewrite (Hw r) by assumption. split; [left; assumption|]. intros [C|(-> & E & _)]; [assumption|lia].
Qed.

Lemma prog_advance : forall sched x (s : shared X), (forall r, progress s r = Nat.min (cnt sched r) 4) -> progress s x < 4 ->
  forall r, put (progress s) x (S (progress s x)) r = Nat.min (cnt (sched ++ [x]) r) 4.
Proof.
  intros sched x s Hp Lx r. rewrite cnt_snoc. destruct (Nat.eq_dec x r) as [<-|N].
  - rewrite put_same. rewrite Hp in *. lia.
  - rewrite put_other by congruence. rewrite Hp. rewrite Nat.add_0_r. reflexivity.
Qed.

Lemma Inv_step : forall sched s x, Inv sched s -> Inv (sched ++ [x]) (em_step new s x).
Proof.
  intros sched s x (B & C). pose proof (b_prog _ _ B) as Bp. pose proof (Bp x) as Px. unfold em_step.
  destruct (progress s x) as [|[|[|[|p]]]] eqn:E.
  - (* look *)
    assert (Cx : cnt sched x = 0) by lia.
    assert (S2 : some (sched ++ [x]) 2 <-> some sched 2) by (rewrite some_snoc; split; [intros [H|H]; [assumption|lia]|auto]).
    assert (S3 : some (sched ++ [x]) 3 <-> some sched 3) by (rewrite some_snoc; split; [intros [H|H]; [assumption|lia]|auto]).
    assert (Ov : overtakes (sched ++ [x]) <-> overtakes sched) by (rewrite overtakes_snoc; split; [intros [H|(H & _)]; [assumption|lia]|auto]).
    split.
    + constructor; cbn; try apply B. intros r. apply prog_advance; [assumption|lia].
    + destruct C as [(No & Sf & Hw)|(Yo & G1 & G2 & G3 & G4)].
      * left. rewrite Ov. split; [assumption|]. split.
        -- cbn. rewrite S2, S3. exact Sf.
        -- intros r Hr. cbn [advance check saw]. rewrite seen_snoc. rewrite cnt_snoc in Hr. destruct (Nat.eq_dec x r) as [<-|N].
           ++ rewrite put_same. assert (Ns : ~ seen sched x) by (intros (t1 & At & _); apply at_step_bound in At; lia).
              destruct Sf as [(A1 & A2 & A3)|[(A1 & A2 & A3 & A4)|(A1 & A2 & (k & Hk & A3) & A4)]]; rewrite A3.
              ** split; [intros _; right; auto|reflexivity].
              ** split; [discriminate|]. intros [H|(_ & _ & [H|H])]; contradiction.
              ** split; [intros _; right; auto|reflexivity].
           ++ rewrite put_other by congruence. rewrite (Hw r) by lia. split; [auto|]. intros [H|(H & _)]; [assumption|contradiction].
      * right. rewrite Ov. split; [assumption|]. unfold gone. rewrite S2, S3. cbn. auto.
  - (* move *)
    assert (Cx : cnt sched x = 1) by lia.
    assert (S2 : some (sched ++ [x]) 2) by (rewrite some_snoc; right; lia).
    assert (S3 : some (sched ++ [x]) 3 <-> some sched 3) by (rewrite some_snoc; split; [intros [H|H]; [assumption|lia]|auto]).
    assert (Bs : basics (sched ++ [x]) (advance X x (move X x s))).
    { assert (Bm : body_of (move X x s) = body_of s /\ next_file (move X x s) = next_file s /\ handles (move X x s) = handles s /\ progress (move X x s) = progress s).
      { unfold move. destruct (saw s x), (main_name s); cbn; auto. }
      destruct Bm as (B1 & B2 & B3 & B4). constructor; cbn; rewrite ?B1, ?B2, ?B3, ?B4; try apply B. intros r. apply prog_advance; [assumption|lia]. }
    split; [assumption|].
    assert (Sw : forall r, saw (advance X x (move X x s)) r = saw s r).
    { intros r. cbn. unfold move. destruct (saw s x), (main_name s); reflexivity. }
    destruct C as [(No & Sf & Hw)|(Yo & G1 & G2 & G3 & G4)].
    + destruct Sf as [(A1 & A2 & A3)|[(A1 & A2 & A3 & A4)|(A1 & A2 & (k & Hk & A3) & A4)]].
      * left. assert (Nv : ~ overtakes (sched ++ [x])) by (rewrite overtakes_snoc; intros [H|(_ & H & _)]; contradiction).
        split; [assumption|]. split; [|apply (saw_keep sched x (saw s)); [lia|assumption|assumption]].
        right. left. assert (Sx : saw s x = true).
        { apply Hw; [lia|]. destruct (at_step_exists sched x 1) as (t1 & At); [lia|]. exists t1. split; [assumption|]. left. intros (r & t & At' & _). apply A1. exists r, t. assumption. }
        cbn. unfold move. rewrite Sx, A3. cbn. rewrite S3. auto.
      * left. assert (Nv : ~ overtakes (sched ++ [x])) by (rewrite overtakes_snoc; intros [H|(_ & H & _)]; contradiction).
        split; [assumption|]. split; [|apply (saw_keep sched x (saw s)); [lia|assumption|assumption]].
        right. left. rewrite S3. cbn. unfold move. rewrite A3. destruct (saw s x); cbn; auto.
      * destruct (saw s x) eqn:Sx.
        -- right. split. { rewrite overtakes_snoc. right. split; [assumption|]. split; [assumption|]. apply Hw; [lia|assumption]. }
           unfold gone. rewrite S3. cbn. unfold move. rewrite Sx, A3. cbn. split; [assumption|]. split; [assumption|]. split; [discriminate|]. exists k. auto.
        -- left. assert (Nv : ~ overtakes (sched ++ [x])).
           { rewrite overtakes_snoc. intros [H|(_ & _ & H)]; [contradiction|]. apply Hw in H; [congruence|lia]. }
           split; [assumption|]. split; [|apply (saw_keep sched x (saw s)); [lia|assumption|assumption]].
           right. right. rewrite S3. cbn. unfold move. rewrite Sx. split; [assumption|]. split; [assumption|]. split; [exists k; auto|assumption].
    + right. split; [rewrite overtakes_snoc; left; assumption|]. unfold gone. rewrite S3. split; [assumption|]. split; [assumption|].
      cbn. unfold move. destruct G4 as (kb & Hkb & Gb). destruct (saw s x); [|cbn; split; [assumption|exists kb; auto]].
      destruct (main_name s) as [k|] eqn:Mn; cbn.
      * split; [discriminate|]. exists k. split; [apply G3; reflexivity|reflexivity].
      * rewrite Mn. split; [discriminate|exists kb; auto].
  - (* open *)
    assert (Cx : cnt sched x = 2) by lia.
    assert (S2 : some (sched ++ [x]) 2 <-> some sched 2) by (rewrite some_snoc; split; [intros [H|H]; [assumption|lia]|auto]).
    assert (S3 : some (sched ++ [x]) 3) by (rewrite some_snoc; right; lia).
    assert (Ov : overtakes (sched ++ [x]) <-> overtakes sched) by (rewrite overtakes_snoc; split; [intros [H|(H & _)]; [assumption|lia]|auto]).
    assert (M : some sched 2) by (apply some_count; exists x; lia).
    assert (Hk : exists k, 2 <= k /\ k = match main_name s with Some k => k | None => next_file s end).
    { eexists. split; [|reflexivity]. pose proof (b_next _ _ B). destruct C as [(No & Sf & Hw)|(Yo & G1 & G2 & G3 & G4)].
      - destruct Sf as [(A1 & A2 & A3)|[(A1 & A2 & A3 & A4)|(A1 & A2 & (k & Hk & A3) & A4)]]; [contradiction|rewrite A3; lia|rewrite A3; lia].
      - destruct (main_name s) as [k|]; [apply G3; reflexivity|lia]. }
    destruct Hk as (k & Hk & Ek).
    split.
    + constructor.
      * intros r. cbn. apply prog_advance; [assumption|lia].
      * cbn. rewrite <- Ek. lia.
      * cbn. rewrite <- Ek. rewrite put_other by lia. apply B.
      * cbn. rewrite <- Ek. intros Hnew k' Hk'. unfold put. destruct (Nat.eqb k' k); [discriminate|apply B; assumption].
      * cbn. rewrite <- Ek. intros r k' [H|H]; [injection H as <- <-; assumption|apply (b_handles _ _ B r k' H)].
    + destruct C as [(No & Sf & Hw)|(Yo & G1 & G2 & G3 & G4)].
      * left. rewrite Ov. split; [assumption|]. split; [|apply (saw_keep sched x (saw s)); [lia|reflexivity|assumption]].
        right. right. rewrite S2. cbn. rewrite <- Ek. split; [assumption|]. split; [assumption|]. split; [exists k; auto|].
        destruct Sf as [(A1 & A2 & A3)|[(A1 & A2 & A3 & A4)|(A1 & A2 & _ & A4)]]; [contradiction|assumption|assumption].
      * right. rewrite Ov. split; [assumption|]. unfold gone. rewrite S2. cbn. rewrite <- Ek. split; [assumption|]. split; [assumption|].
        split; [intros k' H; injection H as <-; assumption|assumption].
  - (* close *)
    assert (Cx : cnt sched x = 3) by lia.
    assert (S2 : some (sched ++ [x]) 2 <-> some sched 2) by (rewrite some_snoc; split; [intros [H|H]; [assumption|lia]|auto]).
    assert (S3 : some (sched ++ [x]) 3 <-> some sched 3) by (rewrite some_snoc; split; [intros [H|H]; [assumption|lia]|auto]).
    assert (Ov : overtakes (sched ++ [x]) <-> overtakes sched) by (rewrite overtakes_snoc; split; [intros [H|(H & _)]; [assumption|lia]|auto]).
    assert (Cl : exists f, close X (new x) x s = {| main_name := main_name s; backup_name := backup_name s; body_of := f; next_file := next_file s;
        handles := handles s; progress := progress s; saw := saw s |} /\ f 0 = Whole old /\ ((forall r, new r <> old) -> forall k, 2 <= k -> f k <> Whole old)).
    { unfold close. destruct (find (fun h => fst h =? x) (handles s)) as [(r, k)|] eqn:Fd.
      - apply find_some in Fd. destruct Fd as (Fd & _). pose proof (b_handles _ _ B r k Fd) as Hk. eexists. split; [reflexivity|]. split.
        + rewrite put_other by lia. apply B.
        + intros Hnew k' Hk'. unfold put. destruct (Nat.eqb k' k); [|apply B; assumption].
          destruct (length (filter (fun h => snd h =? k) (handles s)) =? 1); [|discriminate]. intros H. injection H as H. apply (Hnew x H).
      - exists (body_of s). split; [destruct s; reflexivity|]. split; apply B. }
    destruct Cl as (f & -> & F0 & Fk). split.
    + constructor; cbn; try assumption; try apply B. intros r. exact (prog_advance sched x s Bp ltac:(lia) r).
    + destruct C as [(No & Sf & Hw)|(Yo & G1 & G2 & G3 & G4)].
      * left. rewrite Ov. split; [assumption|]. split; [|apply (saw_keep sched x (saw s)); [lia|reflexivity|assumption]].
        cbn. rewrite S2, S3. exact Sf.
      * right. rewrite Ov. split; [assumption|]. unfold gone. rewrite S2, S3. cbn. auto.
  - (* done *)
    assert (Cx : 4 <= cnt sched x) by lia.
    assert (S2 : some (sched ++ [x]) 2 <-> some sched 2) by (rewrite some_snoc; split; [intros [H|H]; [assumption|lia]|auto]).
    assert (S3 : some (sched ++ [x]) 3 <-> some sched 3) by (rewrite some_snoc; split; [intros [H|H]; [assumption|lia]|auto]).
    assert (Ov : overtakes (sched ++ [x]) <-> overtakes sched) by (rewrite overtakes_snoc; split; [intros [H|(H & _)]; [assumption|lia]|auto]).
    split.
    + constructor; try apply B. intros r. rewrite cnt_snoc, Bp. destruct (Nat.eq_dec x r) as [<-|]; lia.
    + destruct C as [(No & Sf & Hw)|(Yo & G1 & G2 & G3 & G4)].
      * left. rewrite Ov. split; [assumption|]. split; [|apply (saw_keep sched x (saw s)); [lia|reflexivity|assumption]].
        rewrite S2, S3. exact Sf.
      * right. rewrite Ov. split; [assumption|]. unfold gone. rewrite S2, S3. auto.
Qed.

Lemma Inv_run : forall sched, Inv sched (em_run new sched (before old b)).
Proof.
  induction sched as [|x sched IH] using rev_ind; [apply Inv_start|]. unfold em_run. rewrite fold_left_app. cbn [fold_left]. apply Inv_step. exact IH.
Qed.

Lemma not_lost : forall sched, ~ overtakes sched -> readable (em_run new sched (before old b)) old.
Proof.
  intros sched No. destruct (Inv_run sched) as (B & [(_ & Sf & _)|(Yo & _)]); [|contradiction]. unfold readable, under.
  destruct Sf as [(_ & _ & A3)|[(_ & _ & _ & A4)|(_ & _ & _ & A4)]]; [left; rewrite A3|right; rewrite A4|right; rewrite A4]; cbn; rewrite (b_old _ _ B); reflexivity.
Qed.

Lemma C96_schedules_aux : (forall r, new r <> old) -> forall sched, readable (em_run new sched (before old b)) old <-> ~ overtakes sched.
Proof.
  intros Hnew sched. split; [|apply not_lost]. intros R Yo.
  destruct (Inv_run sched) as (B & [(No & _)|(_ & _ & _ & G3 & (k & Hk & G4))]); [contradiction|]. destruct R as [R|R]; unfold under in R.
  - destruct (main_name _) as [m|] eqn:E; [|discriminate]. cbn in R. injection R as R. apply (b_others _ _ B Hnew m (G3 m eq_refl) R).
  - rewrite G4 in R. cbn in R. injection R as R. apply (b_others _ _ B Hnew k Hk R).
Qed.

(** *** One process after the other *)
Record tidy (s : shared X) : Prop := {
  t_main : exists m, main_name s = Some m /\ m < next_file s;
  t_handles : forall r k, In (r, k) (handles s) -> k < next_file s }.

Lemma four_steps : forall s r, tidy s -> progress s r = 0 ->
  let s' := em_run new [r; r; r; r] s in
  tidy s' /\ main_name s' = Some (next_file s) /\ backup_name s' = main_name s /\ body_of s' (next_file s) = Whole (new r) /\
  (forall k, k <> next_file s -> body_of s' k = body_of s k) /\ (forall r', r' <> r -> progress s' r' = progress s r').
Proof.
  intros s r T P. destruct (t_main _ T) as (m & Em & Lm).
  assert (Alone : filter (fun h : nat * nat => snd h =? next_file s) (handles s) = []).
  { pose proof (t_handles _ T) as Th. induction (handles s) as [|(r0, k0) hs IH]; [reflexivity|]. cbn.
    pose proof (Th r0 k0 (or_introl eq_refl)). destruct (Nat.eqb_spec k0 (next_file s)); [lia|]. apply IH. intros; eapply Th; right; eassumption. }
  assert (E0 : forall t, progress t r = 0 -> em_step new t r = advance X r (check X r t)) by (intros t Et; unfold em_step; rewrite Et; reflexivity).
  assert (E1 : forall t, progress t r = 1 -> em_step new t r = advance X r (move X r t)) by (intros t Et; unfold em_step; rewrite Et; reflexivity).
  assert (E2 : forall t, progress t r = 2 -> em_step new t r = advance X r (open_write X r t)) by (intros t Et; unfold em_step; rewrite Et; reflexivity).
  assert (E3 : forall t, progress t r = 3 -> em_step new t r = advance X r (close X (new r) r t)) by (intros t Et; unfold em_step; rewrite Et; reflexivity).
  set (s1 := advance X r (check X r s)). assert (P1 : progress s1 r = 1) by (cbn; rewrite put_same, P; reflexivity).
  assert (M1 : move X r s1 = {| main_name := None; backup_name := Some m; body_of := body_of s; next_file := next_file s; handles := handles s;
                                progress := progress s1; saw := saw s1 |}).
  { unfold move. cbn. rewrite Em. rewrite put_same. reflexivity. }
  set (s2 := advance X r {| main_name := None; backup_name := Some m; body_of := body_of s; next_file := next_file s; handles := handles s;
                            progress := progress s1; saw := saw s1 |}).
  assert (P2 : progress s2 r = 2) by (cbn [s2 advance progress]; rewrite put_same, P1; reflexivity).
  set (s3 := advance X r (open_write X r s2)).
  assert (P3 : progress s3 r = 3) by (cbn [s3 advance open_write progress]; rewrite put_same, P2; reflexivity).
  assert (C3 : close X (new r) r s3 = {| main_name := Some (next_file s); backup_name := Some m;
      body_of := put (body_of s3) (next_file s) (Whole (new r)); next_file := next_file s3; handles := handles s3; progress := progress s3; saw := saw s3 |}).
  { unfold close. cbn. rewrite Nat.eqb_refl. rewrite Nat.eqb_refl. cbn. rewrite Alone. reflexivity. }
  assert (Es : em_run new [r; r; r; r] s = advance X r {| main_name := Some (next_file s); backup_name := Some m;
      body_of := put (body_of s3) (next_file s) (Whole (new r)); next_file := next_file s3; handles := handles s3; progress := progress s3; saw := saw s3 |}).
  { unfold em_run. cbn [fold_left]. rewrite (E0 s P). fold s1. rewrite (E1 s1 P1), M1. fold s2. rewrite (E2 s2 P2). fold s3. rewrite (E3 s3 P3), C3. reflexivity. }
  intros s'. unfold s'. rewrite Es. clear s'.
  cbn. rewrite Em. split; [|split; [reflexivity|split; [reflexivity|split; [apply put_same|split]]]].
  - constructor; cbn; [exists (next_file s); split; [reflexivity|lia]|].
    intros r' k [H|H]; [injection H as <- <-; lia|]. pose proof (t_handles _ T r' k H). lia.
  - intros k Hk. rewrite !put_other by assumption. reflexivity.
  - intros r' Hr. rewrite !put_other by assumption. reflexivity.
Qed.

Lemma one_by_one_run : forall rs s, tidy s -> NoDup rs -> (forall r, In r rs -> progress s r = 0) ->
  tidy (em_run new (one_by_one rs) s) /\ forall r, ~ In r rs -> progress (em_run new (one_by_one rs) s) r = progress s r.
Proof.
  induction rs as [|r rs IH]; intros s T N P; [split; [assumption|reflexivity]|].
  inversion_clear N as [|? ? Nr N']. destruct (four_steps s r T (P r (or_introl eq_refl))) as (T' & _ & _ & _ & _ & P').
  assert (E : em_run new (one_by_one (r :: rs)) s = em_run new (one_by_one rs) (em_run new [r; r; r; r] s)).
  { unfold em_run, one_by_one. cbn [flat_map]. rewrite fold_left_app. reflexivity. }
  rewrite E. destruct (IH (em_run new [r; r; r; r] s) T' N') as (T2 & P2).
  { intros r' Hr. rewrite P'; [apply P; right; assumption|]. intros ->. contradiction. }
  split; [assumption|]. intros r' Hr. rewrite P2 by (intros C; apply Hr; right; assumption). apply P'. intros ->. apply Hr. left. reflexivity.
Qed.

Lemma tidy_before : tidy (before old b).
Proof. constructor; cbn; [exists 0; split; [reflexivity|lia]|intros r k []]. Qed.

Lemma NoDup_app_l : forall (l l' : list nat), NoDup (l ++ l') -> NoDup l /\ NoDup l' /\ forall x, In x l -> ~ In x l'.
Proof.
  induction l as [|x l IH]; intros l' N; [split; [constructor|split; [assumption|intros ? []]]|]. cbn in N. inversion_clear N as [|? ? Nx N'].
  destruct (IH l' N') as (N1 & N2 & N3). split; [constructor; [intros C; apply Nx, in_or_app; left; assumption|assumption]|]. split; [assumption|].
  intros y [<-|Hy]; [intros C; apply Nx, in_or_app; right; assumption|apply N3; assumption].
Qed.

Lemma C96_one_by_one_aux : forall rs r1 r2, NoDup (rs ++ [r1; r2]) ->
  let s := em_run new (one_by_one (rs ++ [r1; r2])) (before old b) in
  under s (main_name s) = Some (Whole (new r2)) /\ under s (backup_name s) = Some (Whole (new r1)).
Proof.
  intros rs r1 r2 N. destruct (NoDup_app_l _ _ N) as (N1 & N2 & N3).
  destruct (one_by_one_run rs (before old b) tidy_before N1 ltac:(reflexivity)) as (T & P).
  set (s0 := em_run new (one_by_one rs) (before old b)) in *.
  assert (E : em_run new (one_by_one (rs ++ [r1; r2])) (before old b) = em_run new [r2; r2; r2; r2] (em_run new [r1; r1; r1; r1] s0)).
  { unfold s0, em_run, one_by_one. rewrite flat_map_app, fold_left_app. reflexivity. }
  intros s. unfold s. rewrite E. clear s E.
  assert (A1 : ~ In r1 rs) by (intros C; apply (N3 r1 C); left; reflexivity).
  assert (A2 : ~ In r2 rs) by (intros C; apply (N3 r2 C); right; left; reflexivity).
  assert (D : r2 <> r1) by (inversion_clear N2 as [|? ? C _]; intros ->; apply C; left; reflexivity).
  destruct (four_steps s0 r1 T) as (T1 & M1 & B1 & W1 & O1 & P1); [rewrite P by assumption; reflexivity|].
  destruct (four_steps _ r2 T1) as (T2 & M2 & B2 & W2 & O2 & P2); [rewrite P1, P by assumption; reflexivity|].
  unfold under. rewrite M2, B2, M1. cbn [option_map]. rewrite W2. split; [reflexivity|]. rewrite O2, W1; [reflexivity|].
  destruct (t_main _ T1) as (m & Em & Lm). rewrite M1 in Em. injection Em as <-. lia.
Qed.

(** *** Only process 0 *)
Lemma base_filter : forall sched s, base_run new sched s = em_run new (filter (Nat.eqb 0) sched) s.
Proof.
  induction sched as [|r sched IH]; intros s; [reflexivity|]. unfold base_run, em_run in *. cbn [fold_left filter]. rewrite IH. unfold base_step.
  destruct r as [|r]; cbn; reflexivity.
Qed.

Lemma only_zero : forall sched, filter (Nat.eqb 0) sched = repeat 0 (cnt sched 0).
Proof.
  induction sched as [|r sched IH]; [reflexivity|]. cbn [filter count_occ]. destruct (Nat.eq_dec r 0) as [->|N].
  - change (0 =? 0) with true. cbn [repeat]. rewrite IH. reflexivity.
  - destruct (Nat.eqb_spec 0 r); [congruence|]. assumption.
Qed.

Lemma zeros_fine : forall n, ~ overtakes (repeat 0 n).
Proof.
  intros n (r & t1 & t2 & _ & (E2 & C2) & (r' & t3 & (E3 & C3) & L) & _).
  assert (Z : forall t x, nth_error (repeat 0 n) t = Some x -> x = 0).
  { intros t x E. apply nth_error_In in E. apply repeat_spec in E. assumption. }
  rewrite (Z _ _ E2) in C2. rewrite (Z _ _ E3) in C3.
  assert (F : forall m t, t <= m -> cnt (firstn t (repeat 0 m)) 0 = t).
  { induction m as [|m IH]; intros [|t] Ht; try lia; cbn; [reflexivity|reflexivity|]. rewrite IH by lia. reflexivity. }
  assert (L2 : t2 < n) by (rewrite <- (repeat_length 0 n); apply nth_error_Some; congruence).
  rewrite F in C2 by lia. rewrite F in C3 by lia. lia.
Qed.

Lemma done_stays : forall n s, 4 <= progress s 0 -> em_run new (repeat 0 n) s = s.
Proof.
  induction n as [|n IH]; intros s P; [reflexivity|]. unfold em_run in *. cbn [repeat fold_left]. unfold em_step at 2.
  destruct (progress s 0) as [|[|[|[|p]]]] eqn:E; try lia. apply IH. lia.
Qed.

Lemma C96_base_aux : forall sched, let s := base_run new sched (before old b) in readable s old /\
  (4 <= cnt sched 0 -> under s (main_name s) = Some (Whole (new 0)) /\ under s (backup_name s) = Some (Whole old)).
Proof.
  intros sched s. unfold s. rewrite base_filter, only_zero. split; [apply not_lost, zeros_fine|]. intros L.
  replace (cnt sched 0) with (4 + (cnt sched 0 - 4)) by lia. set (n := cnt sched 0 - 4).
  assert (E : em_run new (repeat 0 (4 + n)) (before old b) = em_run new [0; 0; 0; 0] (before old b)).
  { rewrite repeat_app. unfold em_run at 1. rewrite fold_left_app. fold (em_run new (repeat 0 4) (before old b)).
    change (repeat 0 4) with [0; 0; 0; 0]. apply done_stays. cbn. lia. }
  rewrite E. destruct (four_steps (before old b) 0 tidy_before eq_refl) as (_ & M & B & W & O & _).
  unfold under. rewrite M, B. cbn [option_map before main_name]. rewrite W, O by (cbn; lia). split; reflexivity.
Qed.
End Ranks.

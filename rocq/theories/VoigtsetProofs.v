(** The pool: every order of arrival gives the results in the order of the inputs. *)
From Coq Require Import ZArith List Reals Arith Bool Lia Permutation.
From Verif Require Import FilterModel FitModel VoigtsetModel VoigtsetSpec.
Import ListNotations.

Lemma all_some : forall {A} (l : list (option A)) r, all_of l = Some r <-> l = map Some r.
Proof.
  induction l as [|[a|] l IH]; intros r; cbn [all_of].
  - split; [intros E; injection E as <-; reflexivity|]. destruct r; [reflexivity|discriminate].
  - destruct (all_of l) as [q|].
    + split.
      * intros E. injection E as <-. cbn [map]. now rewrite (proj1 (IH q) eq_refl).
      * destruct r as [|x r]; [discriminate|]. intros E. injection E as -> E. apply IH in E. now injection E as ->.
    + split; [discriminate|]. destruct r as [|x r]; [discriminate|]. intros E. injection E as -> E. apply IH in E. discriminate.
  - split; [discriminate|]. destruct r; discriminate.
Qed.

Lemma all_none : forall {A} (l : list (option A)), all_of l = None <-> In None l.
Proof.
  induction l as [|[a|] l IH]; cbn [all_of In].
  - split; [discriminate|intros []].
  - destruct (all_of l) as [q|].
    + split; [discriminate|]. intros [E|E]; [discriminate|]. apply IH in E. discriminate.
    + split; [|reflexivity]. intros _. right. now apply IH.
  - split; auto.
Qed.

Lemma skip_skip : forall {A} a b (l : list A), skipn a (skipn b l) = skipn (b + a) l.
Proof. intros A a b. induction b as [|b IH]; intros l; [reflexivity|]. destruct l; [cbn [skipn]; now rewrite skipn_nil|]. cbn [Nat.add skipn]. apply IH. Qed.

Lemma ceil_div_eq : forall n b, (0 < b)%nat -> ceil_div n b = if Nat.eqb (n mod b) 0 then (n / b)%nat else S (n / b).
Proof.
  intros n b B. unfold ceil_div. pose proof (Nat.div_mod n b ltac:(lia)) as D. pose proof (Nat.mod_upper_bound n b ltac:(lia)) as M.
  destruct (Nat.eqb_spec (n mod b) 0) as [E|E].
  - symmetry. apply (Nat.div_unique _ _ _ (b - 1)); lia.
  - symmetry. apply (Nat.div_unique _ _ _ (n mod b - 1)); lia.
Qed.

Lemma ceil_div_lt : forall n c i, (0 < c)%nat -> (i < ceil_div n c <-> i * c < n)%nat.
Proof.
  intros n c i C. unfold ceil_div. pose proof (Nat.div_mod (n + c - 1) c ltac:(lia)) as D. pose proof (Nat.mod_upper_bound (n + c - 1) c ltac:(lia)) as M.
  set (q := ((n + c - 1) / c)%nat) in *. set (m := ((n + c - 1) mod c)%nat) in *. split; intros H; nia.
Qed.

Lemma ceil_div_zero : forall c, ceil_div 0 c = 0%nat.
Proof. intros [|c]; [reflexivity|]. unfold ceil_div. apply Nat.div_small. lia. Qed.

Section Pool.
Context {A B : Type} (f : A -> option B).

Lemma tasks_nth : forall fuel c (xs : list A) i, (0 < c)%nat -> (length xs <= fuel)%nat ->
  nth i (get_tasks fuel c xs) [] = firstn c (skipn (i * c) xs).
Proof.
  induction fuel as [|fuel IH]; intros c xs i C L.
  - destruct xs; [|cbn in L; lia]. cbn [get_tasks]. destruct i; rewrite skipn_nil, firstn_nil; reflexivity.
  - destruct xs as [|x xs]; [cbn [get_tasks]; destruct i; rewrite skipn_nil, firstn_nil; reflexivity|].
    cbn [get_tasks]. destruct i as [|i]; [reflexivity|]. cbn [nth]. rewrite IH; [|assumption|rewrite skipn_length; cbn [length] in *; lia].
    rewrite skip_skip. f_equal.
Qed.

Lemma tasks_len : forall fuel c (xs : list A), (0 < c)%nat -> (length xs <= fuel)%nat -> length (get_tasks fuel c xs) = ceil_div (length xs) c.
Proof.
  induction fuel as [|fuel IH]; intros c xs C L.
  - destruct xs; [|cbn in L; lia]. cbn [get_tasks length]. now rewrite ceil_div_zero.
  - destruct xs as [|x xs]; [cbn [get_tasks length]; now rewrite ceil_div_zero|].
    cbn [get_tasks]. cbn [length]. rewrite IH; [|assumption|rewrite skipn_length; cbn [length] in *; lia]. rewrite skipn_length.
    cbn [length]. destruct (le_lt_dec (S (length xs)) c) as [G|G].
    + replace (S (length xs) - c)%nat with 0%nat by lia. rewrite ceil_div_zero. unfold ceil_div.
      apply (Nat.div_unique _ _ _ (length xs)); lia.
    + unfold ceil_div. replace (S (length xs) + c - 1)%nat with ((S (length xs) - c + c - 1) + 1 * c)%nat by lia.
      rewrite Nat.div_add by lia. lia.
Qed.

Lemma splice_nth : forall (v : list (option B)) m a b j, (a <= length v)%nat -> (a <= b)%nat -> length m = (Nat.min b (length v) - a)%nat -> (j < length v)%nat ->
  nth j (firstn a v ++ m ++ skipn b v) None = if Nat.ltb j a then nth j v None else if Nat.ltb j b then nth (j - a) m None else nth j v None.
Proof.
  intros v m a b j Ha Hab Lm Lj. destruct (Nat.ltb_spec j a) as [H|H].
  - rewrite app_nth1 by (rewrite firstn_length; lia). now rewrite <- (firstn_skipn a v) at 2; rewrite app_nth1 by (rewrite firstn_length; lia).
  - rewrite app_nth2 by (rewrite firstn_length; lia). rewrite firstn_length, Nat.min_l by lia. destruct (Nat.ltb_spec j b) as [G|G].
    + rewrite app_nth1 by lia. reflexivity.
    + rewrite app_nth2 by lia. rewrite Lm. rewrite Nat.min_l by lia.
      rewrite <- (firstn_skipn b v) at 2. rewrite app_nth2 by (rewrite firstn_length; lia). rewrite firstn_length, Nat.min_l by lia. f_equal. lia.
Qed.

Lemma splice_len : forall (v : list (option B)) m a b, (a <= length v)%nat -> (a <= b)%nat -> length m = (Nat.min b (length v) - a)%nat ->
  length (firstn a v ++ m ++ skipn b v) = length v.
Proof. intros v m a b Ha Hab Lm. rewrite !app_length, firstn_length, skipn_length. lia. Qed.

(** What has arrived after some pieces. *)
Definition arrived (c : nat) (xs : list A) (n0 : nat) (done : list nat) (st : @pending B) : Prop :=
  number_left st = (n0 - length done)%nat /\
  (success st = true <-> forall i, In i done -> mapstar f (firstn c (skipn (i * c) xs)) <> None) /\
  (success st = true -> length (value st) = length xs /\
     forall j x, nth_error xs j = Some x -> nth j (value st) None = if in_dec Nat.eq_dec (j / c)%nat done then f x else None).

Lemma nth_map_some : forall (r : list B) (l : list A) j x, all_of (map f l) = Some r -> nth_error l j = Some x -> nth j (map Some r) None = f x.
Proof.
  intros r l j x E N. apply all_some in E. rewrite <- E. rewrite (nth_indep _ None (f x)); [|rewrite map_length; apply nth_error_Some; congruence].
  rewrite map_nth. f_equal. now apply nth_error_nth.
Qed.

Lemma arrive_step : forall c xs n0 done st i, (0 < c)%nat -> (i * c < length xs)%nat -> arrived c xs n0 done st ->
  arrived c xs n0 (done ++ [i]) (arrive f c (get_tasks (length xs) c xs) st i).
Proof.
  intros c xs n0 done st i C I (Nl & Su & Va). unfold arrive. rewrite (tasks_nth _ _ _ _ C (le_n _)).
  destruct (mapstar f (firstn c (skipn (i * c) xs))) as [r|] eqn:E.
  - destruct (success st) eqn:Ss.
    + destruct (Va eq_refl) as (L & V). unfold mapstar in E.
      assert (Lr : length (map Some r) = (Nat.min (S i * c) (length (value st)) - i * c)%nat).
      { pose proof (proj1 (all_some _ _) E) as E'. rewrite <- E'. rewrite map_length, firstn_length, skipn_length, L. lia. }
      split; [cbn [number_left]; rewrite app_length; cbn [length]; lia|]. split.
      * cbn [success]. split; [|reflexivity]. intros _ k Hk. apply in_app_or in Hk. destruct Hk as [Hk|[<-|[]]]; [now apply Su|].
        unfold mapstar. rewrite E. discriminate.
      * intros _. cbn [value]. split; [rewrite splice_len; [exact L|lia|lia|exact Lr]|].
        intros j x N. assert (J : (j < length xs)%nat) by (apply nth_error_Some; congruence).
        rewrite splice_nth; [|lia|lia|exact Lr|lia].
        assert (Q : (j / c)%nat = i <-> (i * c <= j < S i * c)%nat).
        { pose proof (Nat.div_mod j c ltac:(lia)) as D. pose proof (Nat.mod_upper_bound j c ltac:(lia)) as M. split; intros H; nia. }
        destruct (Nat.ltb_spec j (i * c)) as [H|H]; [|destruct (Nat.ltb_spec j (S i * c)) as [G|G]].
        -- rewrite (V j x N). destruct (in_dec Nat.eq_dec (j / c)%nat done) as [P|P]; destruct (in_dec Nat.eq_dec (j / c)%nat (done ++ [i])) as [P'|P']; try reflexivity.
           ++ exfalso. apply P'. apply in_or_app. now left.
           ++ exfalso. apply in_app_or in P'. destruct P' as [P'|[P'|[]]]; [now apply P|]. symmetry in P'. apply Q in P'. lia.
        -- destruct (in_dec Nat.eq_dec (j / c)%nat (done ++ [i])) as [P|P].
           ++ eapply nth_map_some; [exact E|]. clear -N H G. 
              assert (K : nth_error (skipn (i * c) xs) (j - i * c) = Some x).
              { rewrite <- (firstn_skipn (i * c) xs) in N. assert (Lf : (length (firstn (i * c) xs) = i * c)%nat).
                { rewrite firstn_length. apply Nat.min_l. assert (j < length (firstn (i * c) xs ++ skipn (i * c) xs))%nat by (apply nth_error_Some; congruence).
                  rewrite firstn_skipn in H0. lia. }
                rewrite nth_error_app2 in N by lia. now rewrite Lf in N. }
              rewrite <- (firstn_skipn c (skipn (i * c) xs)) in K. rewrite nth_error_app1 in K; [exact K|].
              rewrite firstn_length. assert (j < length xs)%nat by (apply nth_error_Some; congruence). rewrite skipn_length. lia.
           ++ exfalso. apply P. apply in_or_app. right. left. symmetry. apply Q. lia.
        -- rewrite (V j x N). destruct (in_dec Nat.eq_dec (j / c)%nat done) as [P|P]; destruct (in_dec Nat.eq_dec (j / c)%nat (done ++ [i])) as [P'|P']; try reflexivity.
           ++ exfalso. apply P'. apply in_or_app. now left.
           ++ exfalso. apply in_app_or in P'. destruct P' as [P'|[P'|[]]]; [now apply P|]. symmetry in P'. apply Q in P'. lia.
    + split; [cbn [number_left]; rewrite app_length; cbn [length]; lia|]. split; [|discriminate].
      cbn [success]. split; [discriminate|]. intros H. apply Su. intros k Hk. apply H. apply in_or_app. now left.
  - split; [cbn [number_left]; rewrite app_length; cbn [length]; lia|]. split; [|discriminate].
    cbn [success]. split; [discriminate|]. intros H. exfalso. apply (H i); [apply in_or_app; right; now left|exact E].
Qed.

Lemma arrive_all : forall c xs n0 order done st, (0 < c)%nat -> (forall i, In i order -> (i * c < length xs)%nat) -> arrived c xs n0 done st ->
  arrived c xs n0 (done ++ order) (fold_left (arrive f c (get_tasks (length xs) c xs)) order st).
Proof.
  intros c xs n0 order. induction order as [|i order IH]; intros done st C I H; [now rewrite app_nil_r|].
  cbn [fold_left]. replace (done ++ i :: order) with ((done ++ [i]) ++ order) by (now rewrite <- app_assoc).
  apply IH; [exact C|intros k Hk; apply I; now right|]. apply arrive_step; [exact C|apply I; now left|exact H].
Qed.

Lemma chunksize_eq : forall workers n, (0 < workers)%nat -> chunksize workers n = ceil_div n (4 * workers).
Proof. intros w n W. unfold chunksize. rewrite Nat.mul_comm. symmetry. apply ceil_div_eq. lia. Qed.

Lemma ceil_pos : forall n b, (0 < n)%nat -> (0 < b)%nat -> (0 < ceil_div n b)%nat.
Proof. intros n b N Bp. apply ceil_div_lt; lia. Qed.

Theorem pool_order : forall workers order xs, (0 < workers)%nat -> schedule workers (length xs) order ->
  pool_map f workers order xs = match all_of (map f xs) with Some r => Returned (map Some r) | None => Raised end.
Proof.
  intros w order xs W P. unfold pool_map. rewrite (chunksize_eq w _ W). unfold schedule in P. set (c := ceil_div (length xs) (4 * w)) in *.
    assert (Cp : length xs = 0%nat \/ (0 < c)%nat) by (destruct (length xs) eqn:El; [now left|right; apply ceil_pos; lia]).
    destruct Cp as [Z|Cp].
    { destruct xs; [|discriminate]. assert (order = []) as ->. { apply Permutation_nil. rewrite P. cbn [length]. rewrite ceil_div_zero. reflexivity. } reflexivity. }
    rewrite (tasks_len _ _ _ Cp (le_n _)).
    assert (In0 : forall i, In i order <-> (i * c < length xs)%nat).
    { intros i. rewrite <- ceil_div_lt by exact Cp. split; intros H.
      - apply (Permutation_in _ P) in H. apply in_seq in H. lia.
      - apply (Permutation_in _ (Permutation_sym P)). apply in_seq. lia. }
    assert (I0 : arrived c xs (ceil_div (length xs) c) [] (mkPending true (map (fun _ => None) xs) (ceil_div (length xs) c))).
    { split; [cbn; lia|]. split; [cbn; split; [intros _ i []|reflexivity]|]. intros _. cbn [value]. split; [apply map_length|].
      intros j x N. destruct (in_dec Nat.eq_dec (j / c)%nat []) as [[]|_]. clear -N. revert j N. induction xs as [|y xs IH]; intros [|j] N; try reflexivity.
      cbn [map nth]. apply IH. exact N. }
    pose proof (arrive_all c xs _ order [] _ Cp (fun i Hi => proj1 (In0 i) Hi) I0) as H. cbn [app] in H.
    set (st := fold_left _ order _) in *. destruct H as (Nl & Su & Va).
    assert (Lo : length order = ceil_div (length xs) c) by (rewrite (Permutation_length P), seq_length; reflexivity).
    rewrite Nl, Lo, Nat.sub_diag. cbn [Nat.eqb].
    assert (Jc : forall j, (j < length xs)%nat -> In (j / c)%nat order).
    { intros j J. apply In0. pose proof (Nat.div_mod j c ltac:(lia)) as D. nia. }
    destruct (success st) eqn:Ss.
    + destruct (Va eq_refl) as (L & V).
      assert (EV : value st = map f xs).
      { apply (nth_ext _ _ None None); [now rewrite map_length|]. intros j J. rewrite L in J.
        destruct (nth_error xs j) as [x|] eqn:N; [|apply nth_error_None in N; lia].
        rewrite (V j x N). destruct (in_dec Nat.eq_dec (j / c)%nat order) as [_|K]; [|exfalso; apply K; now apply Jc].
        rewrite (nth_indep _ None (f x)) by (rewrite map_length; exact J). rewrite map_nth. f_equal. symmetry. now apply nth_error_nth. }
      rewrite EV. destruct (all_of (map f xs)) as [r|] eqn:E; [apply all_some in E; now rewrite E|].
      exfalso. apply all_none in E. apply in_map_iff in E. destruct E as (x & E & Hx). apply In_nth_error in Hx. destruct Hx as (j & N).
      assert (J : (j < length xs)%nat) by (apply nth_error_Some; congruence).
      apply (proj1 Su eq_refl (j / c)%nat (Jc j J)). unfold mapstar. apply all_none. apply in_map_iff. exists x. split; [exact E|].
      pose proof (Nat.div_mod j c ltac:(lia)) as D. pose proof (Nat.mod_upper_bound j c ltac:(lia)) as M.
      assert (K : nth_error (skipn (j / c * c) xs) (j mod c) = Some x).
      { rewrite <- (firstn_skipn (j / c * c) xs) in N. assert (Lf : (length (firstn (j / c * c) xs) = j / c * c)%nat) by (rewrite firstn_length; apply Nat.min_l; nia).
        rewrite nth_error_app2 in N by (rewrite Lf; nia). rewrite Lf in N. replace (j - j / c * c)%nat with (j mod c)%nat in N by nia. exact N. }
      rewrite <- (firstn_skipn c (skipn (j / c * c) xs)) in K. rewrite nth_error_app1 in K; [eapply nth_error_In; exact K|].
      rewrite firstn_length, skipn_length. nia.
    + destruct (all_of (map f xs)) as [r|] eqn:E; [|reflexivity]. exfalso. apply Bool.diff_false_true. apply Su. intros i Hi K. unfold mapstar in K.
      apply all_none in K. apply in_map_iff in K. destruct K as (x & K & Hx). apply all_some in E.
      assert (In x xs). { rewrite <- (firstn_skipn (i * c) xs). apply in_or_app. right. rewrite <- (firstn_skipn c (skipn (i * c) xs)). apply in_or_app. now left. }
      apply (in_map f) in H. rewrite E, K in H. apply in_map_iff in H. destruct H as (? & H & _). discriminate.
Qed.

Theorem pool_waits : forall workers order rest xs, (0 < workers)%nat -> schedule workers (length xs) (order ++ rest) -> rest <> [] ->
  pool_map f workers order xs = Waiting.
Proof.
  intros w order rest xs W P R. unfold pool_map. rewrite (chunksize_eq w _ W). unfold schedule in P. set (c := ceil_div (length xs) (4 * w)) in *.
  assert (Cp : length xs = 0%nat \/ (0 < c)%nat) by (destruct (length xs) eqn:El; [now left|right; apply ceil_pos; lia]).
  destruct Cp as [Z|Cp].
  { exfalso. destruct xs; [|discriminate]. cbn [length] in P. rewrite ceil_div_zero in P. cbn [seq] in P. apply Permutation_sym, Permutation_nil in P.
    apply app_eq_nil in P. now apply R. }
  rewrite (tasks_len _ _ _ Cp (le_n _)).
  assert (In0 : forall i, In i order -> (i * c < length xs)%nat).
  { intros i H. rewrite <- ceil_div_lt by exact Cp. assert (H' : In i (order ++ rest)) by (apply in_or_app; now left).
    apply (Permutation_in _ P) in H'. apply in_seq in H'. lia. }
  assert (I0 : arrived c xs (ceil_div (length xs) c) [] (mkPending true (map (fun _ => None) xs) (ceil_div (length xs) c))).
  { split; [cbn; lia|]. split; [cbn; split; [intros _ i []|reflexivity]|]. intros _. cbn [value]. split; [apply map_length|].
    intros j x N. destruct (in_dec Nat.eq_dec (j / c)%nat []) as [[]|_]. clear -N. revert j N. induction xs as [|y xs IH]; intros [|j] N; try reflexivity.
    cbn [map nth]. apply IH. exact N. }
  destruct (arrive_all c xs _ order [] _ Cp In0 I0) as (Nl & _ & _). cbn [app] in Nl. rewrite Nl.
  pose proof (Permutation_length P) as L. rewrite app_length, seq_length in L. destruct rest; [congruence|]. cbn [length] in L.
  destruct (Nat.eqb_spec (ceil_div (length xs) c - length order) 0); [lia|reflexivity].
Qed.
End Pool.

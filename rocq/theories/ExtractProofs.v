(** Proofs about the command line extractor. *)
From Coq Require Import Ascii String.
From Coq Require Import Reals List Bool ZArith Arith Lia Lra.
From Verif Require Import ExtractModel ExtractSpec.
Import ListNotations.
Local Open Scope nat_scope.

(** ** Decimal numbers *)

Definition val (l : list nat) : nat := fold_left (fun a d => 10 * a + d) l 0.

Lemma val_snoc : forall l d, val (l ++ [d]) = 10 * val l + d.
Proof. intros. unfold val. now rewrite fold_left_app. Qed.

Lemma val_from : forall l a, fold_left (fun a d => 10 * a + d) l a = a * 10 ^ length l + val l.
Proof.
  induction l as [|d l IH] using rev_ind; intros a.
  - cbn. lia.
  - rewrite fold_left_app, IH, val_snoc, app_length. cbn [fold_left length].
    replace (length l + 1) with (S (length l)) by lia. rewrite Nat.pow_succ_r'. lia.
Qed.

Lemma val_app : forall a b, val (a ++ b) = val a * 10 ^ length b + val b.
Proof. intros. unfold val at 1. rewrite fold_left_app. apply val_from. Qed.

Lemma digits_fuel_enough : forall f n, n < f -> digits_fuel f n = digits n.
Proof.
  assert (H : forall n f, n < f -> digits_fuel f n = digits_fuel (S n) n).
  { induction n as [n IH] using lt_wf_ind. intros [|f] L; [lia|].
    cbn [digits_fuel]. destruct (Nat.ltb_spec n 10); auto. f_equal.
    assert (n / 10 < n) by (apply Nat.div_lt; lia).
    rewrite (IH (n / 10)) by lia. symmetry. apply IH; lia. }
  intros f n L. now apply H.
Qed.

Lemma digits_small : forall n, n < 10 -> digits n = [n].
Proof. intros n L. unfold digits. cbn [digits_fuel]. destruct (Nat.ltb_spec n 10); auto. lia. Qed.

Lemma digits_big : forall n, 10 <= n -> digits n = digits (n / 10) ++ [n mod 10].
Proof.
  intros n L. unfold digits at 1. cbn [digits_fuel]. destruct (Nat.ltb_spec n 10); [lia|].
  f_equal. apply digits_fuel_enough. apply Nat.div_lt; lia.
Qed.

Lemma val_digits : forall n, val (digits n) = n.
Proof.
  induction n as [n IH] using lt_wf_ind. destruct (Nat.lt_ge_cases n 10).
  - rewrite digits_small by lia. reflexivity.
  - rewrite digits_big by lia. rewrite val_snoc, IH by (apply Nat.div_lt; lia).
    symmetry. apply Nat.div_mod_eq.
Qed.

Lemma digits_range : forall n, Forall (fun d => d < 10) (digits n).
Proof.
  induction n as [n IH] using lt_wf_ind. destruct (Nat.lt_ge_cases n 10).
  - rewrite digits_small by lia. auto.
  - rewrite digits_big by lia. apply Forall_app. split; [apply IH, Nat.div_lt; lia|].
    constructor; auto. apply Nat.mod_upper_bound. lia.
Qed.

Lemma digits_head : forall n, 0 < n -> exists d l, digits n = d :: l /\ d <> 0.
Proof.
  induction n as [n IH] using lt_wf_ind. intros P. destruct (Nat.lt_ge_cases n 10).
  - rewrite digits_small by lia. exists n, []. split; auto. lia.
  - rewrite digits_big by lia. destruct (IH (n / 10)) as (d & l & E & D).
    + apply Nat.div_lt; lia.
    + apply Nat.div_str_pos. lia.
    + rewrite E. exists d, (l ++ [n mod 10]). auto.
Qed.

Lemma digits_len2 : forall n, 10 <= n -> 2 <= length (digits n).
Proof.
  intros n L. rewrite digits_big by lia. rewrite app_length. cbn [length].
  destruct (digits_head (n / 10)) as (d & l & -> & _); [|cbn; lia].
  apply Nat.div_str_pos. lia.
Qed.

Lemma val_pos : forall d l, d <> 0 -> 0 < val (d :: l).
Proof.
  intros d l D. change (d :: l) with ([d] ++ l). rewrite val_app.
  assert (0 < 10 ^ length l) by (apply Nat.neq_0_lt_0, Nat.pow_nonzero; lia).
  change (val [d]) with d. nia.
Qed.

Lemma canonical : forall l d, Forall (fun d => d < 10) (d :: l) -> d <> 0 ->
  digits (val (d :: l)) = d :: l.
Proof.
  induction l as [|x l IH] using rev_ind; intros d F D.
  - inversion F; subst. unfold val. cbn [fold_left]. apply digits_small. lia.
  - change (d :: l ++ [x]) with ((d :: l) ++ [x]) in *. apply Forall_app in F as [F X].
    inversion X; subst. rewrite val_snoc.
    pose proof (val_pos d l D). rewrite digits_big by lia.
    replace ((10 * val (d :: l) + x) / 10) with (val (d :: l)).
    2: { apply (Nat.div_unique _ _ _ x); lia. }
    replace ((10 * val (d :: l) + x) mod 10) with x.
    2: { apply (Nat.mod_unique _ _ (val (d :: l))); lia. }
    now rewrite IH.
Qed.

(** ** The sequence of names tried *)

Fixpoint tried (k : nat) : list nat :=
  match k with
  | 0 => [0]
  | S k' => digits (S k') ++ tl (tried k')
  end.

Definition number (k : nat) : nat := val (tried k).

Lemma tried_S : forall k, tried (S k) = digits (S k) ++ tl (tried k).
Proof. reflexivity. Qed.

Lemma tried_cons : forall k, exists d l, tried k = d :: l.
Proof.
  intros [|k]; [now exists 0, []|]. rewrite tried_S.
  destruct (digits_head (S k)) as (d & l & -> & _); [lia|]. exists d, (l ++ tl (tried k)). reflexivity.
Qed.

Lemma tried_range : forall k, Forall (fun d => d < 10) (tried k).
Proof.
  induction k as [|k IH]; [repeat constructor|]. rewrite tried_S. apply Forall_app.
  split; [apply digits_range|]. destruct (tried k); [constructor|]. now inversion IH.
Qed.

Lemma tried_digits : forall k, tried k = digits (number k).
Proof.
  intros [|k]; [reflexivity|]. unfold number. rewrite tried_S.
  destruct (digits_head (S k)) as (d & l & E & D); [lia|].
  pose proof (tried_range (S k)) as R. rewrite tried_S, E in R. rewrite E. cbn [app] in *.
  symmetry. now apply canonical.
Qed.

Lemma number_S : forall k, number (S k) = S k * 10 ^ length (tl (tried k)) + val (tl (tried k)).
Proof. intros k. unfold number. now rewrite tried_S, val_app, val_digits. Qed.

Lemma number_ge : forall k, k <= number k.
Proof.
  intros [|k]; [cbn; lia|]. rewrite number_S.
  assert (0 < 10 ^ length (tl (tried k))) by (apply Nat.neq_0_lt_0, Nat.pow_nonzero; lia). nia.
Qed.

Lemma number_small : forall k, k <= 10 -> number k = k.
Proof. intros k L. do 11 (destruct k as [|k]; [reflexivity|]). lia. Qed.

Lemma number_big : forall k, 11 <= k -> 110 <= number k.
Proof.
  intros [|k] L; [lia|]. rewrite number_S.
  assert (1 <= length (tl (tried k))).
  { destruct k as [|k]; [lia|]. rewrite tried_S.
    pose proof (digits_len2 (S k)). destruct (digits (S k)) as [|a [|b l]]; cbn in *; lia. }
  assert (10 ^ 1 <= 10 ^ length (tl (tried k))) by (apply Nat.pow_le_mono_r; lia).
  change (10 ^ 1) with 10 in *. nia.
Qed.

(** ** Names *)

Definition suffix5 : name := list_ascii_of_string ".hdf5".

Lemma member_zero : forall base, member base 0 = base ++ zero_suffix.
Proof. intros. reflexivity. Qed.

Lemma replace_member : forall base k,
  replace_one (S (length base)) (decimal (S k)) (member base (number k)) = member base (number (S k)).
Proof.
  intros base k. unfold member, decimal. rewrite <- !tried_digits. rewrite tried_S.
  destruct (tried_cons k) as (d & l & ->). cbn [tl map]. rewrite map_app.
  unfold replace_one.
  change (list_ascii_of_string ".") with ["."%char]. fold suffix5.
  replace (base ++ ["."%char] ++ (digit d :: map digit l) ++ suffix5)
    with ((base ++ ["."%char]) ++ digit d :: (map digit l ++ suffix5)) by (rewrite <- app_assoc; reflexivity).
  assert (LB : length (base ++ ["."%char]) = S (length base)) by (rewrite app_length; cbn; lia).
  rewrite firstn_app, LB, Nat.sub_diag, firstn_O, app_nil_r.
  rewrite (firstn_all2 (base ++ ["."%char])) by lia.
  rewrite skipn_app, LB. rewrite (skipn_all2 (base ++ ["."%char])) by lia.
  replace (S (S (length base)) - S (length base)) with 1 by lia. cbn [skipn app].
  rewrite <- !app_assoc. reflexivity.
Qed.

Lemma starts_with_spec : forall pat s, starts_with pat s = true <-> exists b, s = pat ++ b.
Proof.
  induction pat as [|c pat IH]; intros s; cbn [starts_with].
  - split; auto. intros _. now exists s.
  - destruct s as [|d s].
    + split; [discriminate|]. intros [b E]. discriminate.
    + rewrite andb_true_iff, IH, Ascii.eqb_eq. split.
      * intros [-> [b ->]]. now exists b.
      * intros [b E]. injection E as -> ->. eauto.
Qed.

Lemma find_some : forall pat s i, find pat s = Some i -> exists a b, s = a ++ pat ++ b /\ length a = i.
Proof.
  intros pat. induction s as [|c s IH]; intros i E; cbn [find] in E.
  - destruct (starts_with pat []) eqn:SW; [|discriminate]. injection E as <-.
    apply starts_with_spec in SW as [b ->]. now exists [], b.
  - destruct (starts_with pat (c :: s)) eqn:SW.
    + injection E as <-. apply starts_with_spec in SW as [b ->]. now exists [], b.
    + destruct (find pat s) as [j|] eqn:F; [|discriminate]. injection E as <-.
      destruct (IH j eq_refl) as (a & b & -> & L). exists (c :: a), b. cbn. auto.
Qed.

Lemma find_none : forall pat s, find pat s = None -> forall a b, s <> a ++ pat ++ b.
Proof.
  intros pat. induction s as [|c s IH]; intros E a b H; cbn [find] in E.
  - destruct a; [|discriminate]. cbn in H.
    assert (X : starts_with pat (pat ++ b) = true) by (apply starts_with_spec; eauto).
    rewrite <- H in X. rewrite X in E. discriminate.
  - destruct (starts_with pat (c :: s)) eqn:SW; [discriminate|].
    destruct (find pat s) as [j|] eqn:F; [discriminate|].
    destruct a as [|c' a].
    + cbn in H.
      assert (X : starts_with pat (pat ++ b) = true) by (apply starts_with_spec; eauto).
      rewrite <- H in X. rewrite X in SW. discriminate.
    + injection H as <- H. now apply (IH eq_refl a b).
Qed.

Lemma find_plain : forall base, plain base -> find zero_suffix (base ++ zero_suffix) = Some (length base).
Proof.
  intros base P. destruct (find zero_suffix (base ++ zero_suffix)) as [i|] eqn:F.
  - apply find_some in F as (a & b & E & <-). pose proof (P a b E) as ->. rewrite app_nil_r in E.
    apply app_inv_tail in E. now subst.
  - exfalso. apply (find_none _ _ F base []). now rewrite app_nil_r.
Qed.

(** ** The loop *)

(** Files read after step [k], when [n] files exist. *)
Fixpoint reads (fuel k n : nat) : list nat :=
  match fuel with
  | 0 => []
  | S fuel' => if number (S k) <? n then number (S k) :: reads fuel' (S k) n else []
  end.

Lemma file_loop_reads : forall disk base n fuel k done,
  file_set disk base n -> number k < n -> n <= fuel + k ->
  file_loop disk (S (length base)) fuel k (member base (number k)) done
  = Finished (done ++ map (member base) (reads fuel k n)).
Proof.
  intros disk base n. induction fuel as [|fuel IH]; intros k done FS N L; cbn [file_loop reads].
  - pose proof (number_ge k). lia.
  - cbv zeta. rewrite replace_member. destruct FS as [F1 F2]. destruct (Nat.ltb_spec (number (S k)) n).
    + destruct (F1 _ H) as [p E]. rewrite E, IH; [|split; auto|auto|lia].
      cbn [map]. now rewrite <- app_assoc.
    + rewrite (F2 _ H). cbn [map]. now rewrite app_nil_r.
Qed.

Lemma is_hdf5_iff : forall f, is_hdf5 f = true <-> hdf5_file f.
Proof.
  intros f. unfold hdf5_file. split.
  - destruct f; intros H; try discriminate; split; discriminate.
  - intros (A & B). destruct f; cbn [is_hdf5]; congruence.
Qed.

Lemma extract_loop : forall disk base indir fuel,
  plain base -> names_set disk base indir ->
  (exists p, disk (member base 0) = Hdf5 p) ->
  extract disk indir fuel = file_loop disk (S (length base)) fuel 0 (member base 0) [].
Proof.
  intros disk base indir fuel P NS [p E]. rewrite member_zero in *. unfold extract, find_first.
  assert (F : (if is_hdf5 (disk indir) then Some indir
     else if is_hdf5 (disk (indir ++ zero_suffix)) then Some (indir ++ zero_suffix) else None)
     = Some (base ++ zero_suffix)).
  { destruct NS as [[-> B] | ->].
    - destruct (is_hdf5 (disk base)) eqn:B'; [apply is_hdf5_iff in B'; contradiction|]. rewrite E. reflexivity.
    - rewrite E. reflexivity. }
  rewrite F, E, find_plain by auto. reflexivity.
Qed.

Lemma reads_spec : forall fuel k n, 
  (forall m, In m (reads fuel k n) -> m < n /\ exists j, k < j /\ m = number j).
Proof.
  induction fuel as [|fuel IH]; intros k n m H; cbn [reads] in H; [contradiction|].
  destruct (Nat.ltb_spec (number (S k)) n); [|contradiction].
  destruct H as [<- | H].
  - split; auto. exists (S k). split; auto.
  - destruct (IH _ _ _ H) as (A & j & B & C). split; auto. exists j. split; auto. lia.
Qed.

Lemma reads_small : forall fuel k n, k <= 10 -> n <= 110 -> n <= fuel + k ->
  reads fuel k n = seq (S k) (Nat.min (n - 1) 10 - k).
Proof.
  induction fuel as [|fuel IH]; intros k n K N L; cbn [reads].
  - replace (Nat.min (n - 1) 10 - k) with 0 by lia. reflexivity.
  - destruct (Nat.eq_dec k 10) as [-> | NE].
    + pose proof (number_big 11 (le_n _)). destruct (Nat.ltb_spec (number 11) n); [lia|].
      replace (Nat.min (n - 1) 10 - 10) with 0 by lia. reflexivity.
    + rewrite number_small by lia. destruct (Nat.ltb_spec (S k) n).
      * rewrite IH by lia. replace (Nat.min (n - 1) 10 - k) with (S (Nat.min (n - 1) 10 - S k)) by lia.
        reflexivity.
      * replace (Nat.min (n - 1) 10 - k) with 0 by lia. reflexivity.
Qed.

Lemma reads_first : forall fuel k n m, k < m <= 10 -> m < n -> n <= fuel + k -> In m (reads fuel k n).
Proof.
  induction fuel as [|fuel IH]; intros k n m M N L; cbn [reads]; [lia|].
  rewrite number_small by lia. destruct (Nat.ltb_spec (S k) n); [|lia].
  destruct (Nat.eq_dec m (S k)) as [-> | NE]; [now left|]. right. apply IH; lia.
Qed.

Lemma C47_files_aux : forall disk base indir n fuel,
  file_set disk base n -> plain base -> names_set disk base indir -> 0 < n <= fuel ->
  exists read, extract disk indir fuel = Finished (map (member base) read) /\
    ~ In 0 read /\
    (forall k, 11 <= k < 110 -> ~ In k read) /\
    (forall k, 1 <= k <= 10 -> k < n -> In k read) /\
    (n <= 110 -> read = seq 1 (Nat.min (n - 1) 10)).
Proof.
  intros disk base indir n fuel FS P NS [N L].
  rewrite (extract_loop disk base); auto. 2: { apply FS. lia. }
  exists (reads fuel 0 n). split.
  { apply (file_loop_reads disk base n fuel 0 []); auto. cbn. lia. }
  split; [|split; [|split]].
  - intros H. destruct (reads_spec _ _ _ _ H) as (_ & j & J & E).
    pose proof (number_ge j). lia.
  - intros k K H. destruct (reads_spec _ _ _ _ H) as (_ & j & J & E).
    destruct (Nat.le_gt_cases j 10).
    + rewrite number_small in E by lia. lia.
    + pose proof (number_big j). lia.
  - intros k K KN. apply reads_first; lia.
  - intros N1. rewrite reads_small by lia. now rewrite Nat.sub_0_r.
Qed.

Lemma C47_single_aux : forall disk indir fuel,
  hdf5_file (disk indir) -> (forall a b, indir <> a ++ zero_suffix ++ b) ->
  extract disk indir fuel = Gadget.
Proof.
  intros disk indir fuel H N. apply is_hdf5_iff in H. unfold extract, find_first. rewrite H.
  destruct (disk indir) eqn:E; try discriminate; auto;
  (destruct (find zero_suffix indir) as [i|] eqn:F; auto;
   apply find_some in F as (a & b & X & _); exfalso; eapply N; eauto).
Qed.

Lemma C47_broken_aux : forall disk base indir fuel k,
  plain base -> names_set disk base indir -> 1 <= k <= 10 -> k <= fuel ->
  (forall j, j < k -> exists p, disk (member base j) = Hdf5 p) ->
  disk (member base k) = NoHeader ->
  extract disk indir fuel = Crash (map (member base) (seq 1 (k - 1))).
Proof.
  intros disk base indir fuel k P NS K KF OK BAD.
  rewrite (extract_loop disk base); auto. 2: { apply OK. lia. }
  change 0 with (number 0) at 2.
  assert (H : forall m fuel j done, k = S (m + j) -> m < fuel ->
     file_loop disk (S (length base)) fuel j (member base (number j)) done
     = Crash (done ++ map (member base) (seq (S j) m))).
  { induction m as [|m IH]; intros [|f] j done E M; try lia; cbn [file_loop]; cbv zeta;
      rewrite replace_member, (number_small (S j)) by lia.
    - replace (S j) with k by lia. rewrite BAD. cbn [seq map]. now rewrite app_nil_r.
    - destruct (OK (S j)) as [p ->]; [lia|]. pose proof (IH f (S j) (done ++ [member base (S j)])) as X.
      rewrite (number_small (S j)) in X by lia. rewrite X by lia. cbn [seq map]. now rewrite <- app_assoc. }
  apply (H (k - 1) fuel 0 []); lia.
Qed.

(** ** The table of sightlines *)
Local Open Scope R_scope.

Lemma silly_spec : forall boxm l, silly boxm l = false ->
  (0 <= l_axis l <= 3)%Z /\ 0 <= l_x l <= boxm /\ 0 <= l_y l <= boxm /\ 0 <= l_z l <= boxm.
Proof.
  intros boxm l H. unfold silly in H.
  destruct ((3 <? l_axis l)%Z || (l_axis l <? 0)%Z) eqn:A; [discriminate|].
  apply orb_false_iff in A as [A1 A2]. apply Z.ltb_ge in A1, A2.
  destruct (Rlt_dec boxm (l_x l)); [discriminate|]. destruct (Rlt_dec (l_x l) 0); [discriminate|].
  destruct (Rlt_dec boxm (l_y l)); [discriminate|]. destruct (Rlt_dec (l_y l) 0); [discriminate|].
  destruct (Rlt_dec boxm (l_z l)); [discriminate|]. destruct (Rlt_dec (l_z l) 0); [discriminate|].
  repeat split; try lia; lra.
Qed.

Lemma silly_true : forall boxm l, silly boxm l = true ->
  ~ ((0 <= l_axis l <= 3)%Z /\ 0 <= l_x l <= boxm /\ 0 <= l_y l <= boxm /\ 0 <= l_z l <= boxm).
Proof.
  intros boxm l H (A & B & C & D). unfold silly in H.
  destruct ((3 <? l_axis l)%Z || (l_axis l <? 0)%Z) eqn:E.
  - apply orb_true_iff in E as [E | E]; apply Z.ltb_lt in E; lia.
  - destruct (Rlt_dec boxm (l_x l)); [lra|]. destruct (Rlt_dec (l_x l) 0); [lra|].
    destruct (Rlt_dec boxm (l_y l)); [lra|]. destruct (Rlt_dec (l_y l) 0); [lra|].
    destruct (Rlt_dec boxm (l_z l)); [lra|]. destruct (Rlt_dec (l_z l) 0); [lra|]. discriminate.
Qed.

Lemma fits_silly : forall box l, fits box l <-> silly (box / 1000) l = false.
Proof.
  intros box l. split; intros H.
  - destruct (silly (box / 1000) l) eqn:E; auto. apply silly_true in E. exfalso. apply E.
    destruct H as (A & B & C & D). repeat split; try lia; lra.
  - apply silly_spec in H as (A & B & C & D). unfold fits. repeat split; try lia; lra.
Qed.

Lemma C50_table_aux : forall lines u box n fuel out,
  populate_los_table (Some lines) u box n fuel = Some out <->
  (n <= length lines)%nat /\ Forall (fits box) (firstn n lines) /\ out = map scaled (firstn n lines).
Proof.
  intros lines u box n fuel. cbn [populate_los_table]. revert lines.
  induction n as [|n IH]; intros lines out; cbn [read_table firstn].
  - split.
    + intros E. injection E as <-. repeat split; auto. lia.
    + intros (_ & _ & ->). reflexivity.
  - destruct lines as [|l lines]; cbn [length].
    + split; [discriminate|]. intros [L _]. lia.
    + destruct (silly (box / 1000) l) eqn:E.
      * split; [discriminate|]. intros (_ & F & _). inversion F as [|? ? X]; subst.
        apply fits_silly in X. congruence.
      * apply fits_silly in E. split.
        -- intros H. destruct (read_table (box / 1000) n lines) as [o|] eqn:RT; [|discriminate].
           injection H as <-. apply IH in RT as (L & F & ->). repeat split; auto. lia.
        -- intros (L & F & ->). inversion F; subst.
           assert (read_table (box / 1000) n lines = Some (map scaled (firstn n lines))) as ->.
           { apply IH. repeat split; auto. lia. }
           reflexivity.
Qed.

Lemma int_of_spec : forall x k, 0 <= x -> IZR k <= x < IZR k + 1 -> int_of x = k.
Proof.
  intros x k P [A B]. unfold int_of. assert (up x = (k + 1)%Z); [|lia].
  symmetry. apply tech_up; rewrite plus_IZR; lra.
Qed.

Lemma draw_axis_range : forall u fuel pos axis p, (forall k, 0 <= u k < 1) ->
  draw_axis u fuel pos = Some (axis, p) -> (1 <= axis <= 3)%Z.
Proof.
  intros u fuel. induction fuel as [|fuel IH]; intros pos axis p U E; cbn [draw_axis] in E; [discriminate|].
  destruct ((int_of (u pos * 4) =? 0)%Z || (int_of (u pos * 4) =? 4)%Z) eqn:B.
  - eapply IH; eauto.
  - injection E as <- <-. apply orb_false_iff in B as [B1 B2]. apply Z.eqb_neq in B1, B2.
    destruct (U pos) as [U1 U2]. destruct (archimed (u pos * 4)) as [A1 A2]. unfold int_of in *.
    assert (0 < up (u pos * 4))%Z by (apply lt_IZR; lra).
    assert (up (u pos * 4) < 6)%Z by (apply lt_IZR; lra). lia.
Qed.

Lemma draw_axis_ends : forall u pos j, (forall k, 0 <= u k < 1) -> 1 / 4 <= u (pos + j)%nat ->
  exists axis p, draw_axis u (S j) pos = Some (axis, p) /\ (p <= pos + j + 1)%nat.
Proof.
  intros u pos j U. revert pos. induction j as [|j IH]; intros pos H.
  - rewrite Nat.add_0_r in H. cbn [draw_axis].
    destruct ((int_of (u pos * 4) =? 0)%Z || (int_of (u pos * 4) =? 4)%Z) eqn:B.
    + exfalso. destruct (U pos) as [U1 U2]. destruct (archimed (u pos * 4)) as [A1 A2]. unfold int_of in *.
      assert (1 < up (u pos * 4))%Z by (apply lt_IZR; lra).
      assert (up (u pos * 4) - 1 < 4)%Z. { apply lt_IZR. rewrite minus_IZR. lra. }
      apply orb_true_iff in B as [B | B]; apply Z.eqb_eq in B; lia.
    + eexists _, _. split; [reflexivity|]. lia.
  - cbn [draw_axis].
    destruct ((int_of (u pos * 4) =? 0)%Z || (int_of (u pos * 4) =? 4)%Z) eqn:B.
    + destruct (IH (S pos)) as (a & p & E & L). { replace (S pos + j)%nat with (pos + S j)%nat by lia. exact H. }
      cbn [draw_axis] in E. exists a, p. split; [exact E|]. lia.
    + eexists _, _. split; [reflexivity|]. lia.
Qed.

Lemma C50_random_aux : forall u box n fuel out, (forall k, 0 <= u k < 1) -> 0 <= box ->
  populate_los_table None u box n fuel = Some out ->
  length out = n /\ Forall (fun l => real_axis l /\ inside box l) out.
Proof.
  intros u box n fuel out U B E. cbn [populate_los_table] in E. revert E. generalize 0%nat at 1. revert out.
  induction n as [|n IH]; intros out pos E; cbn [random_table] in E.
  - injection E as <-. auto.
  - destruct (draw_axis u fuel pos) as [[axis p]|] eqn:D; [|discriminate].
    destruct (random_table u box fuel n (p + 3)) as [o|] eqn:RT; [|discriminate].
    injection E as <-. apply IH in RT as [L F]. cbn [length]. split; [lia|]. constructor; auto. split.
    + unfold real_axis. cbn [l_axis]. eapply draw_axis_range; eauto.
    + unfold inside. cbn [l_x l_y l_z].
      assert (V : forall k, 0 <= u k * box <= box).
      { intros k. destruct (U k). split; [apply Rmult_le_pos; auto|].
        rewrite <- (Rmult_1_l box) at 2. apply Rmult_le_compat_r; lra. }
      auto.
Qed.

(** Drawing ends if at least one of every [w] consecutive numbers is at least 1/4. *)
Lemma C50_random_ends_aux : forall u box w, (forall k, 0 <= u k < 1) ->
  (forall pos, exists j, (j < w)%nat /\ 1 / 4 <= u (pos + j)%nat) ->
  forall n, exists out, populate_los_table None u box n w = Some out.
Proof.
  intros u box w U H n. cbn [populate_los_table]. generalize 0%nat at 1.
  assert (MONO : forall fuel fuel' pos r, (fuel <= fuel')%nat -> draw_axis u fuel pos = Some r -> draw_axis u fuel' pos = Some r).
  { induction fuel as [|fuel IH]; intros [|fuel'] pos r L E; cbn [draw_axis] in *; try discriminate; try lia.
    destruct ((int_of (u pos * 4) =? 0)%Z || (int_of (u pos * 4) =? 4)%Z); auto. apply IH; auto. lia. }
  induction n as [|n IH]; intros pos; cbn [random_table]; [eauto|].
  destruct (H pos) as (j & J & Q). destruct (draw_axis_ends u pos j U Q) as (a & p & E & _).
  rewrite (MONO _ w _ _ J E). destruct (IH (p + 3)%nat) as [o ->]. cbn [option_map]. eauto.
Qed.

Lemma C50_table_inside_aux : forall lines u box n fuel out,
  populate_los_table (Some lines) u box n fuel = Some out ->
  length out = n /\ Forall (fun l => inside box l /\ (0 <= l_axis l <= 3)%Z) out.
Proof.
  intros lines u box n fuel out E. apply C50_table_aux in E as (L & F & ->). split.
  - rewrite map_length, firstn_length. lia.
  - apply Forall_forall. intros l H. apply in_map_iff in H as (l0 & <- & H).
    rewrite Forall_forall in F. destruct (F _ H) as (A & B & C & D).
    unfold inside, scaled. cbn [l_axis l_x l_y l_z]. auto.
Qed.

Lemma digit_map_inj : forall a b, Forall (fun d => d < 10)%nat a -> Forall (fun d => d < 10)%nat b ->
  map digit a = map digit b -> a = b.
Proof.
  induction a as [|x a IH]; intros [|y b] A B E; cbn [map] in E; try discriminate; auto.
  inversion A; inversion B; subst. injection E as E1 E2. f_equal; auto.
  unfold digit in E1. apply (f_equal nat_of_ascii) in E1. rewrite !nat_ascii_embedding in E1 by lia. lia.
Qed.

Lemma member_inj : forall base j k, member base j = member base k -> j = k.
Proof.
  intros base j k E. unfold member in E. apply app_inv_head in E. apply app_inv_head in E.
  apply app_inv_tail in E. unfold decimal in E.
  apply digit_map_inj in E; auto using digits_range.
  rewrite <- (val_digits j), <- (val_digits k). now rewrite E.
Qed.

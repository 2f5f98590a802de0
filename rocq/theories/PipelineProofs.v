(** Proofs about whole spectra. *)
From Coq Require Import ZArith List Lia Reals Lra Psatz Permutation Sorted.
From Flocq Require Import Core.Raux.
From Verif Require SightlineProofs.
From Verif Require Import Containers ContainersProofs IndexModel IndexSpec IndexProofs AbsorptionModel
  AbsorptionSpec AbsorptionProofs TauProofs VoronoiModel VoronoiSpec VoronoiProofs PipelineModel PipelineSpec.
Import ListNotations.
Local Open Scope R_scope.

(** ** Sequences of additions *)

Lemma apply_nth_spec : forall op arr j v, (j < length arr)%nat ->
  exists arr', apply_nth op j v arr = Some arr' /\ length arr' = length arr /\
    forall k, nth k arr' 0 = if Nat.eqb k j then op (nth k arr 0) v else nth k arr 0.
Proof.
  intros op. induction arr as [|x arr IH]; intros [|j] v Hj; simpl in Hj; try lia.
  - exists (op x v :: arr). split; [reflexivity|]. split; [reflexivity|]. intros [|k]; reflexivity.
  - destruct (IH j v ltac:(lia)) as (a & E & L & N). exists (x :: a). simpl. rewrite E.
    split; [reflexivity|]. split; [congruence|]. intros [|k]; [reflexivity|]. simpl. apply N.
Qed.

Lemma apply_nth_none : forall op arr j v, (length arr <= j)%nat -> apply_nth op j v arr = None.
Proof.
  intros op. induction arr as [|x arr IH]; intros [|j] v Hj; simpl in *; try lia; auto.
  rewrite IH by lia. reflexivity.
Qed.

Lemma apply_events_none : forall op evs, fold_left (apply_event op) evs None = None.
Proof. induction evs; simpl; auto. Qed.

Lemma apply_events_app : forall op e1 e2 arr, apply_events op (e1 ++ e2) arr =
  match apply_events op e1 arr with None => None | Some a => apply_events op e2 a end.
Proof.
  intros. unfold apply_events. rewrite fold_left_app.
  destruct (fold_left (apply_event op) e1 (Some arr)); [reflexivity|]. apply apply_events_none.
Qed.

Definition at_cell (c : Z) (evs : list event) : list R := map snd (filter (fun e => Z.eqb (fst e) c) evs).

Definition within (lo hi : Z) (evs : list event) : Prop := forall e, In e evs -> (lo <= fst e < hi)%Z.

Lemma apply_events_spec : forall op evs arr, within 0 (Z.of_nat (length arr)) evs ->
  exists arr', apply_events op evs arr = Some arr' /\ length arr' = length arr /\
    forall k, nth k arr' 0 = fold_left op (at_cell (Z.of_nat k) evs) (nth k arr 0).
Proof.
  intros op. induction evs as [|[c v] evs IH]; intros arr W.
  - exists arr. split; [reflexivity|]. split; [reflexivity|]. intros k. reflexivity.
  - pose proof (W _ (or_introl eq_refl)) as Hc. simpl in Hc.
    destruct (apply_nth_spec op arr (Z.to_nat c) v ltac:(lia)) as (a & E & L & N).
    destruct (IH a) as (a' & E' & L' & N').
    { rewrite L. intros e He. apply W. right. assumption. }
    exists a'. split; [|split; [congruence|]].
    + unfold apply_events in *. simpl. destruct (Z.ltb_spec c 0); [lia|]. rewrite E. assumption.
    + intros k. rewrite N', N. unfold at_cell. simpl.
      destruct (Z.eqb_spec c (Z.of_nat k)); destruct (Nat.eqb_spec k (Z.to_nat c)); try lia; reflexivity.
Qed.

(** If any addition is outside the array, the result is [None]. *)
Lemma apply_events_length : forall op evs arr arr', apply_events op evs arr = Some arr' ->
  length arr' = length arr /\ within 0 (Z.of_nat (length arr)) evs.
Proof.
  intros op. induction evs as [|[c v] evs IH]; intros arr arr' H.
  - injection H as <-. split; [reflexivity|]. intros e [].
  - unfold apply_events in H. simpl in H. destruct (Z.ltb_spec c 0); [rewrite apply_events_none in H; discriminate|].
    destruct (lt_dec (Z.to_nat c) (length arr)) as [Hc|Hc].
    + destruct (apply_nth_spec op arr (Z.to_nat c) v Hc) as (a & E & L & _). rewrite E in H.
      destruct (IH a arr' H) as (H1 & H2). split; [congruence|].
      intros e [<-|He]; [simpl; lia|]. rewrite <- L. apply H2. assumption.
    + rewrite apply_nth_none, apply_events_none in H by lia. discriminate.
Qed.

Lemma add_nth_apply : forall arr j v, add_nth j v arr = apply_nth Rplus j v arr.
Proof. induction arr as [|x arr IH]; intros [|j] v; simpl; auto. rewrite IH. reflexivity. Qed.

Lemma add_at_apply : forall z v arr, add_at z v arr = apply_event Rplus (Some arr) (z, v).
Proof. intros. unfold add_at, apply_event. simpl. rewrite add_nth_apply. reflexivity. Qed.

Lemma deposit_apply : forall n value zs arr,
  deposit n value zs (Some arr) = apply_events Rplus (map (fun z => (wrap_index z n, value z)) zs) arr.
Proof.
  intros n value zs arr. unfold deposit, apply_events. generalize (Some arr) as acc.
  induction zs as [|z zs IH]; intros acc; [reflexivity|]. cbn [fold_left map]. rewrite IH.
  f_equal. destruct acc as [a|]; [|reflexivity]. apply add_at_apply.
Qed.

Lemma colden_apply : forall k vb vf n dr2 dens pos smooth arr,
  add_colden_particle k vb vf n dr2 dens pos smooth arr =
  apply_events Rplus (colden_events k vb vf n dr2 dens pos smooth) arr.
Proof.
  intros. unfold add_colden_particle, colden_events, skips.
  destruct k; repeat (match goal with |- context [if ?b then _ else _] => destruct b end; try reflexivity);
    apply deposit_apply.
Qed.

Lemma tau_loop_apply : forall n t value zs arr,
  tau_loop n t value zs arr = apply_events Rplus (tau_loop_events n t value zs) arr.
Proof.
  induction zs as [|z zs IH]; intros arr; [reflexivity|]. cbn [tau_loop tau_loop_events].
  unfold apply_events. cbn [fold_left]. rewrite add_at_apply.
  destruct (apply_event Rplus (Some arr) (wrap_index z n, value z)) as [a|].
  - destruct (Rlt_dec (value z) t); [reflexivity|]. apply IH.
  - symmetry. destruct (Rlt_dec (value z) t); [reflexivity|]. apply apply_events_none.
Qed.

Lemma tau_apply : forall profile L k n dr2 dens ppos pvel temp smooth arr,
  add_tau_particle profile L k n dr2 dens ppos pvel temp smooth arr =
  apply_events Rplus (tau_events profile L k n dr2 dens ppos pvel temp smooth) arr.
Proof.
  intros. unfold add_tau_particle, tau_events, skips.
  destruct k; repeat (match goal with |- context [if ?b then _ else _] =>
      match b with Rle_dec _ _ => destruct b | Rlt_dec _ _ => destruct b end end; try reflexivity);
    rewrite apply_events_app, <- tau_loop_apply;
    (match goal with |- match ?e with _ => _ end = _ => destruct e; [apply tau_loop_apply|reflexivity] end).
Qed.

Lemma colden_events_within : forall k vb vf n dr2 dens pos smooth, (0 < n)%Z ->
  within 0 n (colden_events k vb vf n dr2 dens pos smooth).
Proof.
  intros k vb vf n dr2 dens pos smooth Hn e He. unfold colden_events in He.
  destruct (skips _ _ _ _ _); [destruct He|]. apply in_map_iff in He. destruct He as (z & <- & _).
  cbn [fst]. rewrite wrap_index_mod by assumption. apply Z.mod_pos_bound. assumption.
Qed.

Lemma tau_loop_events_within : forall n t value zs, (0 < n)%Z -> within 0 n (tau_loop_events n t value zs).
Proof.
  intros n t value zs Hn. induction zs as [|z zs IH]; intros e He; [destruct He|].
  cbn [tau_loop_events] in He. destruct He as [<-|He].
  - cbn [fst]. rewrite wrap_index_mod by assumption. apply Z.mod_pos_bound. assumption.
  - destruct (Rlt_dec (value z) t); [destruct He|]. apply IH. assumption.
Qed.

Lemma tau_events_within : forall profile L k n dr2 dens ppos pvel temp smooth, (0 < n)%Z ->
  within 0 n (tau_events profile L k n dr2 dens ppos pvel temp smooth).
Proof.
  intros profile L k n dr2 dens ppos pvel temp smooth Hn e He. unfold tau_events in He.
  destruct (skips _ _ _ _ _); [destruct He|]. apply in_app_iff in He.
  destruct He as [He|He]; apply tau_loop_events_within in He; assumption.
Qed.

(** ** One line *)

Definition rel_events (qu : quantity) (su : setup) (gs : list gas) (l : sightline) (near : imap Z)
  : option (list event) :=
  match line_targets su gs l near with
  | None => None
  | Some ts => option_map (@concat event) (all_some (map (one_events qu su gs (l_axis l)) ts))
  end.

Definition shift (off : nat) (evs : list event) : list event :=
  map (fun e => (Z.of_nat off + fst e, snd e)%Z) evs.

Lemma line_events_rel : forall qu su gs i l near,
  line_events qu su gs i l near = option_map (shift (line_offset su i)) (rel_events qu su gs l near).
Proof.
  intros. unfold line_events, rel_events. destruct (line_targets su gs l near); [|reflexivity].
  destruct (all_some _); reflexivity.
Qed.

Lemma add_one_apply : forall qu su gs axis t arr, add_one qu su gs axis t arr =
  match one_events qu su gs axis t with None => None | Some evs => apply_events Rplus evs arr end.
Proof.
  intros qu su gs axis (ipart & d & s) arr. unfold add_one, one_events.
  destruct (at_part gs ipart); [|reflexivity].
  destruct (flat g_pos gs _); [|reflexivity].
  destruct qu.
  - destruct (flat g_vel gs _); [|reflexivity]. apply tau_apply.
  - apply colden_apply.
Qed.

Lemma one_events_within : forall qu su gs axis t evs, (0 < su_nbins su)%nat ->
  one_events qu su gs axis t = Some evs -> within 0 (Z.of_nat (su_nbins su)) evs.
Proof.
  intros qu su gs axis (ipart & d & s) evs Hn. unfold one_events.
  destruct (at_part gs ipart); [|discriminate]. destruct (flat g_pos gs _); [|discriminate]. destruct qu.
  - destruct (flat g_vel gs _); [|discriminate]. injection 1 as <-. apply tau_events_within. lia.
  - injection 1 as <-. apply colden_events_within. lia.
Qed.

Lemma run_line_apply : forall qu su gs l near arr, run_line qu su gs l near arr =
  match rel_events qu su gs l near with None => None | Some evs => apply_events Rplus evs arr end.
Proof.
  intros. unfold run_line, rel_events. destruct (line_targets su gs l near) as [ts|]; [|reflexivity].
  assert (NN : forall ts', fold_left (fun acc t => match acc with
       | None => None | Some a => add_one qu su gs (l_axis l) t a end) ts' None = None)
    by (induction ts'; simpl; auto).
  revert arr. induction ts as [|t ts IH]; intros arr; [reflexivity|].
  cbn [fold_left map all_some]. rewrite add_one_apply.
  destruct (one_events qu su gs (l_axis l) t) as [evs|]; [|rewrite NN; reflexivity].
  destruct (apply_events Rplus evs arr) as [a|] eqn:E.
  - rewrite IH. destruct (all_some _) as [es|]; [|reflexivity]. simpl.
    rewrite apply_events_app, E. reflexivity.
  - rewrite NN. destruct (all_some _) as [es|]; [|reflexivity]. simpl. rewrite apply_events_app, E. reflexivity.
Qed.

Lemma all_some_in : forall A (l : list (option A)) r, all_some l = Some r ->
  length r = length l /\ forall i, nth_error l i = option_map Some (nth_error r i).
Proof.
  induction l as [|[a|] l IH]; intros r H; simpl in H; try discriminate.
  - injection H as <-. split; [reflexivity|]. intros [|i]; reflexivity.
  - destruct (all_some l) as [r'|]; [|discriminate]. injection H as <-.
    destruct (IH r' eq_refl) as (H1 & H2). split; [simpl; congruence|].
    intros [|i]; [reflexivity|]. apply H2.
Qed.

Lemma all_some_total : forall A (l : list (option A)), (forall o, In o l -> o <> None) ->
  exists r, all_some l = Some r.
Proof.
  induction l as [|[a|] l IH]; intros H.
  - exists []. reflexivity.
  - destruct IH as (r & E). { intros o Ho. apply H. right. assumption. }
    exists (a :: r). simpl. rewrite E. reflexivity.
  - exfalso. apply (H None); [left|]; reflexivity.
Qed.

Lemma rel_events_within : forall qu su gs l near evs, (0 < su_nbins su)%nat ->
  rel_events qu su gs l near = Some evs -> within 0 (Z.of_nat (su_nbins su)) evs.
Proof.
  intros qu su gs l near evs Hn. unfold rel_events. destruct (line_targets su gs l near) as [ts|]; [|discriminate].
  destruct (all_some _) as [es|] eqn:E; [|discriminate]. simpl. injection 1 as <-.
  intros e He. apply in_concat in He. destruct He as (evs & Hevs & He).
  apply In_nth_error in Hevs. destruct Hevs as (i & Hi).
  destruct (all_some_in _ _ _ E) as (_ & H2). specialize (H2 i). rewrite Hi, nth_error_map in H2.
  destruct (nth_error ts i); [|discriminate]. simpl in H2. injection H2 as H2.
  apply (one_events_within _ _ _ _ _ _ Hn H2). assumption.
Qed.

(** ** Offsets *)

Lemma apply_nth_offset : forall op off arr j v, (off <= length arr)%nat ->
  apply_nth op (off + j) v arr = option_map (app (firstn off arr)) (apply_nth op j v (skipn off arr)).
Proof.
  intros op. induction off as [|off IH]; intros arr j v H.
  - simpl. destruct (apply_nth op j v arr); reflexivity.
  - destruct arr as [|x arr]; [simpl in H; lia|]. simpl in H. simpl. rewrite IH by lia.
    destruct (apply_nth op j v (skipn off arr)); reflexivity.
Qed.

Lemma apply_events_offset : forall op off evs arr, (off <= length arr)%nat ->
  (forall e, In e evs -> (0 <= fst e)%Z) ->
  apply_events op (shift off evs) arr = at_offset off (apply_events op evs) arr.
Proof.
  intros op off. induction evs as [|[c v] evs IH]; intros arr H Hpos.
  - unfold at_offset. simpl. rewrite firstn_skipn. reflexivity.
  - pose proof (Hpos _ (or_introl eq_refl)) as Hc. simpl in Hc.
    unfold at_offset in *. unfold apply_events in *. simpl.
    destruct (Z.ltb_spec (Z.of_nat off + c) 0); [lia|]. destruct (Z.ltb_spec c 0); [lia|].
    replace (Z.to_nat (Z.of_nat off + c)) with (off + Z.to_nat c)%nat by lia.
    rewrite apply_nth_offset by assumption.
    destruct (lt_dec (Z.to_nat c) (length (skipn off arr))) as [Hl|Hl].
    + destruct (apply_nth_spec op (skipn off arr) (Z.to_nat c) v Hl) as (a & E & L & _).
      rewrite E. cbn [option_map]. rewrite skipn_length in L.
      assert (Hf : length (firstn off arr) = off) by (rewrite firstn_length; lia).
      rewrite IH.
      * rewrite skipn_app, firstn_app, Hf, Nat.sub_diag. cbn [firstn skipn].
        rewrite app_nil_r. rewrite firstn_firstn, Nat.min_id.
        replace (skipn off (firstn off arr)) with (@nil R); [reflexivity|].
        symmetry. apply skipn_all2. lia.
      * rewrite app_length. lia.
      * intros e He. apply Hpos. right. assumption.
    + rewrite apply_nth_none by lia. cbn [option_map]. rewrite !apply_events_none. reflexivity.
Qed.

(** ** All lines *)

Lemma line_offset_eq : forall su nl i, (Z.of_nat nl * Z.of_nat (su_nbins su) <= 2 ^ 32)%Z -> (i < nl)%nat ->
  (0 < su_nbins su)%nat -> line_offset su i = (i * su_nbins su)%nat.
Proof.
  intros su nl i H Hi Hn. unfold line_offset. rewrite Z.mod_small by nia. lia.
Qed.

Lemma at_cell_shift : forall off c evs, at_cell (Z.of_nat off + c) (shift off evs) = at_cell c evs.
Proof.
  intros off c evs. unfold at_cell, shift. induction evs as [|[a v] evs IH]; [reflexivity|]. simpl.
  destruct (Z.eqb_spec (Z.of_nat off + a) (Z.of_nat off + c)); destruct (Z.eqb_spec a c); try lia;
    simpl; [f_equal|]; assumption.
Qed.

Lemma at_cell_app : forall c e1 e2, at_cell c (e1 ++ e2) = at_cell c e1 ++ at_cell c e2.
Proof. intros. unfold at_cell. rewrite filter_app, map_app. reflexivity. Qed.

Lemma at_cell_outside : forall c lo hi evs, within lo hi evs -> (c < lo \/ hi <= c)%Z -> at_cell c evs = [].
Proof.
  intros c lo hi evs. unfold at_cell. induction evs as [|e evs IH]; intros W Hc; [reflexivity|]. simpl.
  pose proof (W e (or_introl eq_refl)). destruct (Z.eqb_spec (fst e) c); [lia|].
  apply IH; [|assumption]. intros e' He'. apply W. right. assumption.
Qed.

Lemma shift_within : forall off n evs, within 0 n evs -> within (Z.of_nat off) (Z.of_nat off + n) (shift off evs).
Proof.
  intros off n evs W e He. apply in_map_iff in He. destruct He as (e' & <- & He'). apply W in He'.
  cbn [fst]. lia.
Qed.

Section Lines.
Variables (qu : quantity) (su : setup) (ls : list sightline) (gs : list gas) (lists : list (imap Z)).
Hypothesis Hn : (0 < su_nbins su)%nat.
Hypothesis Hsize : (Z.of_nat (length ls) * Z.of_nat (su_nbins su) <= 2 ^ 32)%Z.
Hypothesis Hlists : length lists = length ls.

Let n := su_nbins su.

(** Events of line i, relative to its start. *)
Definition evs_of (i : nat) : option (list event) :=
  match nth_error ls i, nth_error lists i with
  | Some l, Some near => rel_events qu su gs l near
  | _, _ => None
  end.

Lemma loop_lines_ok : forall order arr, length arr = (length ls * n)%nat ->
  (forall i, In i order -> (i < length ls)%nat) ->
  (forall i, In i order -> evs_of i <> None) ->
  exists arr', loop_lines qu su ls gs lists order arr = Some arr' /\ length arr' = length arr /\
    forall k, nth k arr' 0 =
      fold_left Rplus (at_cell (Z.of_nat k)
        (concat (map (fun i => match evs_of i with Some evs => shift (i * n) evs | None => [] end) order))) (nth k arr 0).
Proof.
  unfold loop_lines. induction order as [|i order IH]; intros arr La Hi He.
  - exists arr. split; [reflexivity|]. split; [reflexivity|]. reflexivity.
  - pose proof (Hi i (or_introl eq_refl)) as Hi0. pose proof (He i (or_introl eq_refl)) as He0.
    cbn [fold_left map concat]. unfold evs_of at 1 in He0. unfold evs_of at 1.
    destruct (nth_error ls i) as [l|]; [|congruence]. destruct (nth_error lists i) as [near|]; [|congruence].
    destruct (rel_events qu su gs l near) as [evs|] eqn:E; [|congruence].
    rewrite (line_offset_eq su (length ls)) by assumption. fold n.
    pose proof (rel_events_within _ _ _ _ _ _ Hn E) as W. fold n in W.
    assert (Eo : at_offset (i * n) (run_line qu su gs l near) arr = apply_events Rplus (shift (i * n) evs) arr).
    { rewrite apply_events_offset; [|nia|intros e He'; apply W in He'; lia].
      unfold at_offset. rewrite run_line_apply, E. reflexivity. }
    rewrite Eo.
    destruct (apply_events_spec Rplus (shift (i * n) evs) arr) as (a & E1 & L1 & N1).
    { intros e He'. apply (shift_within (i * n) _ _ W) in He'. rewrite La. nia. }
    rewrite E1.
    destruct (IH a) as (a' & E2 & L2 & N2); [congruence| | |].
    { intros j Hj. apply Hi. right. assumption. } { intros j Hj. apply He. right. assumption. }
    exists a'. split; [assumption|]. split; [congruence|]. intros k. rewrite N2, N1, at_cell_app, fold_left_app.
    reflexivity.
Qed.

Lemma loop_lines_none : forall order arr i, In i order -> evs_of i = None ->
  loop_lines qu su ls gs lists order arr = None.
Proof.
  unfold loop_lines.
  assert (NN : forall order, fold_left (fun acc i =>
      match acc, nth_error ls i, nth_error lists i with
      | Some a, Some l, Some near => at_offset (line_offset su i) (run_line qu su gs l near) a
      | _, _, _ => None
      end) order None = None) by (induction order; simpl; auto).
  induction order as [|j order IH]; intros arr i Hi He; [destruct Hi|].
  cbn [fold_left]. destruct Hi as [->|Hi].
  - unfold evs_of in He. destruct (nth_error ls i); [|apply NN]. destruct (nth_error lists i); [|apply NN].
    unfold at_offset. rewrite run_line_apply, He. apply NN.
  - destruct (nth_error ls j); [|apply NN]. destruct (nth_error lists j); [|apply NN].
    destruct (at_offset _ _ _) as [a|]; [|apply NN]. apply (IH a i); assumption.
Qed.

(** Cell i*n+j only sees the events of line i. *)
Lemma at_cell_lines : forall order i j, NoDup order -> In i order -> (j < n)%nat ->
  at_cell (Z.of_nat (i * n + j))
    (concat (map (fun i => match evs_of i with Some evs => shift (i * n) evs | None => [] end) order)) =
  match evs_of i with Some evs => at_cell (Z.of_nat j) evs | None => [] end.
Proof.
  intros order i j ND Hin Hj.
  assert (W : forall i' evs, evs_of i' = Some evs -> within 0 (Z.of_nat n) evs).
  { intros i' evs. unfold evs_of. destruct (nth_error ls i'); [|discriminate].
    destruct (nth_error lists i'); [|discriminate]. apply rel_events_within. assumption. }
  assert (Other : forall i', i' <> i ->
     at_cell (Z.of_nat (i * n + j)) (match evs_of i' with Some evs => shift (i' * n) evs | None => [] end) = []).
  { intros i' Hne. destruct (evs_of i') as [evs|] eqn:E; [|reflexivity].
    apply (at_cell_outside _ _ _ _ (shift_within (i' * n) _ _ (W i' evs E))). nia. }
  assert (Same : at_cell (Z.of_nat (i * n + j)) (match evs_of i with Some evs => shift (i * n) evs | None => [] end) =
     match evs_of i with Some evs => at_cell (Z.of_nat j) evs | None => [] end).
  { destruct (evs_of i) as [evs|]; [|reflexivity].
    rewrite Nat2Z.inj_add. apply at_cell_shift. }
  assert (Gone : forall o, ~ In i o -> at_cell (Z.of_nat (i * n + j))
    (concat (map (fun i => match evs_of i with Some evs => shift (i * n) evs | None => [] end) o)) = []).
  { induction o as [|i' o IHo]; intros Ho; [reflexivity|]. cbn [map concat]. rewrite at_cell_app, Other, IHo.
    - reflexivity.
    - intros H. apply Ho. right. assumption.
    - intros ->. apply Ho. left. reflexivity. }
  induction order as [|i' order IH]; [destruct Hin|]. inversion ND; subst.
  cbn [map concat]. rewrite at_cell_app. destruct (Nat.eq_dec i' i) as [->|Hne].
  - rewrite Same, Gone by assumption. apply app_nil_r.
  - rewrite Other by assumption. simpl. apply IH; [assumption|]. destruct Hin; [congruence|assumption].
Qed.
End Lines.

Lemma nth_repeat_0 : forall n k, nth k (repeat 0 n) 0 = 0.
Proof. exact nth_repeat0. Qed.

(** ** The search, line by line *)

Lemma near_for_line : forall L ls ps order order1 lists i l near,
  (Z.of_nat (length ps) <= 2 ^ 31)%Z -> schedule (length ps) order -> schedule (length ps) order1 ->
  get_near_particles L ls ps order = Some lists -> nth_error ls i = Some l -> nth_error lists i = Some near ->
  get_near_particles L [l] ps order1 = Some [near].
Proof.
  intros L ls ps order order1 lists i l near Hsz Ho Ho1 E Hl Hn.
  destruct (get_near_particles_spec L ls ps order Hsz Ho) as (lists' & E' & Hlen & H).
  rewrite E in E'. injection E' as <-.
  destruct (get_near_particles_spec L [l] ps order1 Hsz Ho1) as (lists1 & E1 & Hlen1 & H1).
  rewrite E1. destruct lists1 as [|near1 [|? ?]]; try discriminate Hlen1. f_equal. f_equal.
  destruct (H i near Hn) as (S1 & J1). destruct (H1 0%nat near1 eq_refl) as (S2 & J2).
  apply ksorted_ext; try assumption. intros (k & d). rewrite J1, J2. unfold pair_hit. split.
  - intros (k' & -> & p & l' & A & B & C). exists k'. split; [reflexivity|]. exists p, l.
    simpl in B. split; [assumption|]. split; [assumption|]. congruence.
  - intros (k' & -> & p & l' & A & B & C). exists k'. split; [reflexivity|]. exists p, l.
    split; [assumption|]. split; [reflexivity|]. congruence.
Qed.

Lemma fits_parts : forall su ls gs, fits su ls gs -> (Z.of_nat (length (map g_part gs)) <= 2 ^ 31)%Z.
Proof. intros su ls gs (H & _). rewrite map_length. lia. Qed.

(** The value of [interpolate]: per line, through its events. *)
Lemma interpolate_value : forall qu su ls gs op ol, (0 < su_nbins su)%nat -> fits su ls gs ->
  schedule (length gs) op -> schedule (length ls) ol ->
  exists lists, get_near_particles (su_box su) ls (map g_part gs) op = Some lists /\ length lists = length ls /\
  ((forall i, (i < length ls)%nat -> evs_of qu su ls gs lists i <> None) ->
     exists out, interpolate qu su ls gs op ol = Some out /\ length out = (length ls * su_nbins su)%nat /\
     forall i j evs, (i < length ls)%nat -> (j < su_nbins su)%nat -> evs_of qu su ls gs lists i = Some evs ->
       nth (i * su_nbins su + j) out 0 = fold_left Rplus (at_cell (Z.of_nat j) evs) 0) /\
  (forall i, (i < length ls)%nat -> evs_of qu su ls gs lists i = None ->
     interpolate qu su ls gs op ol = None).
Proof.
  intros qu su ls gs op ol Hn F Ho Hol.
  assert (Ho' : Permutation op (seq 0 (length (map g_part gs)))) by (rewrite map_length; assumption).
  destruct (get_near_particles_spec (su_box su) ls (map g_part gs) op (fits_parts _ _ _ F) Ho') as (lists & E & Hlen & _).
  exists lists. split; [assumption|]. split; [assumption|].
  pose proof (perm_seq_in _ _ Hol) as Hin.
  assert (ND : NoDup ol) by (eapply Permutation_NoDup; [apply Permutation_sym; exact Hol|apply seq_NoDup]).
  split.
  - intros Hsome.
    destruct (loop_lines_ok qu su ls gs lists Hn (proj2 F) Hlen ol (repeat 0 (length ls * su_nbins su)))
      as (out & E1 & L1 & N1).
    { apply repeat_length. } { intros i Hi. apply Hin. assumption. } { intros i Hi. apply Hsome, Hin. assumption. }
    exists out. split; [unfold interpolate; rewrite E; assumption|]. split; [rewrite L1; apply repeat_length|].
    intros i j evs Hi Hj Ee. rewrite N1, at_cell_lines by (try assumption; apply Hin; assumption).
    rewrite Ee, nth_repeat0. reflexivity.
  - intros i Hi Hnone. unfold interpolate. rewrite E. apply (loop_lines_none qu su ls gs lists ol _ i).
    + apply Hin. assumption.
    + assumption.
Qed.

(** ** C05: lines are independent *)

Lemma nth_slice : forall (l : list R) off n j, (j < n)%nat ->
  nth j (firstn n (skipn off l)) 0 = nth (off + j) l 0.
Proof.
  intros l off n j Hj.
  assert (F : forall (m : list R) k i, (i < k)%nat -> nth i (firstn k m) 0 = nth i m 0).
  { induction m as [|x m IH]; intros [|k] [|i] H; simpl; auto; try lia. apply IH. lia. }
  rewrite F by assumption. revert l. induction off as [|off IH]; intros l; [reflexivity|].
  destruct l as [|x l]; [simpl; destruct j; reflexivity|]. simpl. apply IH.
Qed.

Lemma slice_length : forall (l : list R) off n, (off + n <= length l)%nat -> length (firstn n (skipn off l)) = n.
Proof. intros l off n H. rewrite firstn_length, skipn_length. lia. Qed.

Lemma list_ext0 : forall (a b : list R), length a = length b ->
  (forall j, (j < length a)%nat -> nth j a 0 = nth j b 0) -> a = b.
Proof. intros a b H1 H2. apply (nth_ext a b 0 0); assumption. Qed.

Lemma slices_ext : forall (a b : list R) nl n, length a = (nl * n)%nat -> length b = (nl * n)%nat ->
  (forall i j, (i < nl)%nat -> (j < n)%nat -> nth (i * n + j) a 0 = nth (i * n + j) b 0) -> a = b.
Proof.
  intros a b nl n Ha Hb H. apply list_ext0; [congruence|]. intros k Hk.
  destruct (Nat.eq_dec n 0) as [->|Hn]; [lia|].
  pose proof (Nat.div_mod k n Hn) as D. pose proof (Nat.mod_upper_bound k n Hn).
  rewrite D, Nat.mul_comm. apply H; [|assumption]. apply Nat.div_lt_upper_bound; lia.
Qed.

Lemma evs_of_alone : forall qu su ls gs op op1 lists i l near, (0 < su_nbins su)%nat -> fits su ls gs ->
  schedule (length gs) op -> schedule (length gs) op1 ->
  get_near_particles (su_box su) ls (map g_part gs) op = Some lists -> nth_error ls i = Some l ->
  nth_error lists i = Some near ->
  get_near_particles (su_box su) [l] (map g_part gs) op1 = Some [near] /\
  evs_of qu su [l] gs [near] 0 = evs_of qu su ls gs lists i.
Proof.
  intros qu su ls gs op op1 lists i l near Hn F Ho Ho1 E Hl Hnear. split.
  - apply (near_for_line (su_box su) ls (map g_part gs) op op1 lists i l near); try assumption.
    + apply (fits_parts _ _ _ F).
    + unfold schedule. rewrite map_length. assumption.
    + unfold schedule. rewrite map_length. assumption.
  - unfold evs_of. simpl. rewrite Hl, Hnear. reflexivity.
Qed.

Lemma fits_one : forall su ls gs l, ls <> [] -> fits su ls gs -> fits su [l] gs.
Proof.
  intros su ls gs l H (F1 & F2). split; [assumption|]. simpl length.
  destruct ls as [|? ls]; [congruence|]. simpl length in F2. nia.
Qed.

Lemma C05_independent_aux : forall qu su ls gs op ol op1, (0 < su_nbins su)%nat -> fits su ls gs ->
  schedule (length gs) op -> schedule (length ls) ol -> schedule (length gs) op1 ->
  (forall out, interpolate qu su ls gs op ol = Some out <->
     length out = (length ls * su_nbins su)%nat /\
     forall i l, nth_error ls i = Some l ->
       interpolate qu su [l] gs op1 [0%nat] =
       Some (firstn (su_nbins su) (skipn (i * su_nbins su) out))).
Proof.
  intros qu su ls gs op ol op1 Hn F Ho Hol Ho1.
  destruct (interpolate_value qu su ls gs op ol Hn F Ho Hol) as (lists & E & Hlen & Hok & Hnone).
  assert (Near : forall i l, nth_error ls i = Some l -> exists near, nth_error lists i = Some near).
  { intros i l Hl. assert (i < length ls)%nat by (apply nth_error_Some; congruence).
    destruct (nth_error lists i) eqn:En; [eauto|]. apply nth_error_None in En. lia. }
  assert (Alone : forall i l evs out, nth_error ls i = Some l -> evs_of qu su ls gs lists i = Some evs ->
     length out = (length ls * su_nbins su)%nat ->
     (forall j, (j < su_nbins su)%nat ->
        nth (i * su_nbins su + j) out 0 = fold_left Rplus (at_cell (Z.of_nat j) evs) 0) ->
     interpolate qu su [l] gs op1 [0%nat] = Some (firstn (su_nbins su) (skipn (i * su_nbins su) out))).
  { intros i l evs out Hl Ee Lo Hv. destruct (Near i l Hl) as (near & Hnear).
    assert (Hi : (i < length ls)%nat) by (apply nth_error_Some; congruence).
    destruct (evs_of_alone qu su ls gs op op1 lists i l near Hn F Ho Ho1 E Hl Hnear) as (G1 & G2).
    destruct (interpolate_value qu su [l] gs op1 [0%nat] Hn) as (lists1 & E1 & _ & Hok1 & _).
    { apply (fits_one su ls); [|assumption]. intros ->. simpl in Hi. lia. }
    { assumption. } { apply Permutation_refl. }
    rewrite G1 in E1. injection E1 as <-.
    destruct Hok1 as (out1 & I1 & L1 & V1).
    { intros [|i'] Hi'; [rewrite G2, Ee; discriminate|simpl in Hi'; lia]. }
    rewrite I1. f_equal. apply list_ext0.
    - rewrite slice_length by nia. simpl in L1. lia.
    - intros j Hj. simpl in L1. rewrite nth_slice by lia. rewrite Hv by lia.
      apply (V1 0%nat j evs); [simpl; lia|lia|]. rewrite G2. assumption. }
  assert (Dec : (forall i, (i < length ls)%nat -> evs_of qu su ls gs lists i <> None) \/
     exists i, (i < length ls)%nat /\ evs_of qu su ls gs lists i = None).
  { clear. generalize (length ls) as m. induction m as [|m IH].
    - left. intros i Hi. lia.
    - destruct IH as [IH|(i & Hi & Hx)]; [|right; exists i; split; [lia|assumption]].
      destruct (evs_of qu su ls gs lists m) as [evs|] eqn:Em; [left|right; exists m; split; [lia|assumption]].
      intros i Hi. destruct (Nat.eq_dec i m) as [->|]; [congruence|]. apply IH. lia. }
  destruct Dec as [Dec|(i & Hi & Hx)].
  - destruct (Hok Dec) as (out0 & I0 & L0 & V0).
    assert (All : forall i l, nth_error ls i = Some l ->
       interpolate qu su [l] gs op1 [0%nat] = Some (firstn (su_nbins su) (skipn (i * su_nbins su) out0))).
    { intros i l Hl. assert (Hi : (i < length ls)%nat) by (apply nth_error_Some; congruence).
      destruct (evs_of qu su ls gs lists i) as [evs|] eqn:Ee; [|exfalso; apply (Dec i Hi Ee)].
      apply (Alone i l evs); try assumption. intros j Hj. apply V0; assumption. }
    intros out. split.
    + rewrite I0. injection 1 as <-. split; assumption.
    + intros (Lo & Ho'). rewrite I0. f_equal. apply (slices_ext out0 out (length ls) (su_nbins su)); try assumption.
      intros i j Hi Hj. destruct (nth_error ls i) as [l|] eqn:El; [|apply nth_error_None in El; lia].
      pose proof (All i l El) as A1. rewrite (Ho' i l El) in A1. injection A1 as A1.
      rewrite <- !(nth_slice _ (i * su_nbins su) (su_nbins su) j) by assumption. rewrite A1. reflexivity.
  - intros out. rewrite (Hnone i Hi Hx). split; [discriminate|]. intros (_ & H). exfalso.
    destruct (nth_error ls i) as [l|] eqn:El; [|apply nth_error_None in El; lia].
    destruct (Near i l El) as (near & Hnear).
    destruct (evs_of_alone qu su ls gs op op1 lists i l near Hn F Ho Ho1 E El Hnear) as (G1 & G2).
    destruct (interpolate_value qu su [l] gs op1 [0%nat] Hn) as (lists1 & E1 & _ & _ & Hnone1).
    { apply (fits_one su ls); [|assumption]. intros ->. simpl in Hi. lia. }
    { assumption. } { apply Permutation_refl. }
    rewrite G1 in E1. injection E1 as <-.
    specialize (H i l El). rewrite (Hnone1 0%nat) in H; [discriminate|simpl; lia|congruence].
Qed.

Lemma C05_schedule_aux : forall qu su ls gs op ol op' ol', (0 < su_nbins su)%nat -> fits su ls gs ->
  schedule (length gs) op -> schedule (length ls) ol -> schedule (length gs) op' -> schedule (length ls) ol' ->
  interpolate qu su ls gs op ol = interpolate qu su ls gs op' ol'.
Proof.
  intros qu su ls gs op ol op' ol' Hn F Ho Hol Ho' Hol'.
  pose proof (C05_independent_aux qu su ls gs op ol op Hn F Ho Hol Ho) as I1.
  pose proof (C05_independent_aux qu su ls gs op' ol' op Hn F Ho' Hol' Ho) as I2.
  destruct (interpolate qu su ls gs op ol) as [out|] eqn:E1.
  - symmetry. apply I2. apply I1. reflexivity.
  - destruct (interpolate qu su ls gs op' ol') as [out|] eqn:E2; [|reflexivity].
    apply I1. apply I2. reflexivity.
Qed.

(** ** Interleavings of the single additions *)

Lemma interleaving_filter : forall A (P : A -> bool) ts tr, interleaving ts tr ->
  forall i es, nth_error ts i = Some es ->
  (forall k es', k <> i -> nth_error ts k = Some es' -> filter P es' = []) ->
  filter P tr = filter P es.
Proof.
  intros A P ts tr H. induction H as [ts Hall|ts i0 e es0 tr Hn Hi IH]; intros i es Hes Hoth.
  - rewrite Forall_forall in Hall. rewrite <- (Hall es); [reflexivity|]. eapply nth_error_In; eauto.
  - assert (Upd : forall k, nth_error (update_nth i0 (fun _ => es0) ts) k =
       if Nat.eqb k i0 then Some es0 else nth_error ts k).
    { intros k. rewrite nth_error_update_nth. destruct (Nat.eqb_spec k i0) as [->|]; [rewrite Hn|]; reflexivity. }
    assert (Oth' : forall k es', k <> i -> nth_error (update_nth i0 (fun _ => es0) ts) k = Some es' -> filter P es' = []).
    { intros k es' Hk. rewrite Upd. destruct (Nat.eqb_spec k i0) as [->|].
      - injection 1 as <-. pose proof (Hoth i0 _ Hk Hn) as HH. simpl in HH. destruct (P e); [discriminate|assumption].
      - apply Hoth. assumption. }
    destruct (Nat.eq_dec i i0) as [->|Hne].
    + rewrite Hn in Hes. injection Hes as <-. simpl.
      rewrite (IH i0 es0); [reflexivity| |assumption]. rewrite Upd, Nat.eqb_refl. reflexivity.
    + simpl. pose proof (Hoth i0 _ (not_eq_sym Hne) Hn) as HH. simpl in HH.
      destruct (P e); [discriminate|]. apply (IH i es); [|assumption].
      rewrite Upd. destruct (Nat.eqb_spec i i0); [congruence|assumption].
Qed.

Lemma interleaving_in : forall A ts (tr : list A), interleaving ts tr ->
  forall e, In e tr -> exists i es, nth_error ts i = Some es /\ In e es.
Proof.
  intros A ts tr H. induction H as [ts Hall|ts i0 e0 es0 tr Hn Hi IH]; intros e He; [destruct He|].
  destruct He as [<-|He].
  - exists i0, (e0 :: es0). split; [assumption|left; reflexivity].
  - destruct (IH e He) as (i & es & E1 & E2). rewrite nth_error_update_nth in E1.
    destruct (Nat.eqb_spec i i0) as [->|].
    + rewrite Hn in E1. simpl in E1. injection E1 as <-. exists i0, (e0 :: es0). split; [assumption|right; assumption].
    + exists i, es. split; assumption.
Qed.

(** What the theorem says about the list [evss] of the additions of all lines. *)
Lemma C05_interleavings_aux : forall qu su ls gs op ol lists evss, (0 < su_nbins su)%nat -> fits su ls gs ->
  schedule (length gs) op -> schedule (length ls) ol ->
  get_near_particles (su_box su) ls (map g_part gs) op = Some lists ->
  length evss = length ls ->
  (forall i l near evs, nth_error ls i = Some l -> nth_error lists i = Some near ->
     nth_error evss i = Some evs -> line_events qu su gs i l near = Some evs) ->
  (forall i evs e, nth_error evss i = Some evs -> In e evs ->
     (Z.of_nat (i * su_nbins su) <= fst e < Z.of_nat ((i + 1) * su_nbins su))%Z) /\
  (forall (add : R -> R -> R) arr tr tr', length arr = (length ls * su_nbins su)%nat ->
     interleaving evss tr -> interleaving evss tr' ->
     exists out, apply_events add tr arr = Some out /\ apply_events add tr' arr = Some out) /\
  (forall tr, interleaving evss tr ->
     apply_events Rplus tr (repeat 0 (length ls * su_nbins su)) = interpolate qu su ls gs op ol).
Proof.
  intros qu su ls gs op ol lists evss Hn F Ho Hol E Hlen Hev.
  destruct (interpolate_value qu su ls gs op ol Hn F Ho Hol) as (lists' & E' & Hlen' & Hok & _).
  rewrite E in E'. injection E' as <-.
  assert (Shape : forall i evs, nth_error evss i = Some evs ->
     exists rel, evs_of qu su ls gs lists i = Some rel /\ evs = shift (i * su_nbins su) rel /\ (i < length ls)%nat).
  { intros i evs Hi. assert (Hil : (i < length ls)%nat) by (rewrite <- Hlen; apply nth_error_Some; congruence).
    destruct (nth_error ls i) as [l|] eqn:El; [|apply nth_error_None in El; lia].
    destruct (nth_error lists i) as [near|] eqn:Enr; [|apply nth_error_None in Enr; lia].
    pose proof (Hev i l near evs El Enr Hi) as He. rewrite line_events_rel in He.
    unfold evs_of. rewrite El, Enr. destruct (rel_events qu su gs l near) as [rel|]; [|discriminate].
    injection He as <-. exists rel. split; [reflexivity|]. split; [|assumption].
    rewrite (line_offset_eq su (length ls)) by (try assumption; apply F). reflexivity. }
  assert (Win : forall i rel, evs_of qu su ls gs lists i = Some rel -> within 0 (Z.of_nat (su_nbins su)) rel).
  { intros i rel. unfold evs_of. destruct (nth_error ls i); [|discriminate].
    destruct (nth_error lists i); [|discriminate]. apply rel_events_within. assumption. }
  assert (P1 : forall i evs e, nth_error evss i = Some evs -> In e evs ->
     (Z.of_nat (i * su_nbins su) <= fst e < Z.of_nat ((i + 1) * su_nbins su))%Z).
  { intros i evs e Hi He. destruct (Shape i evs Hi) as (rel & Er & -> & Hil).
    apply (shift_within _ _ _ (Win i rel Er)) in He. nia. }
  assert (Cell : forall tr, interleaving evss tr -> forall i j evs, nth_error evss i = Some evs -> (j < su_nbins su)%nat ->
     at_cell (Z.of_nat (i * su_nbins su + j)) tr = at_cell (Z.of_nat (i * su_nbins su + j)) evs).
  { intros tr Htr i j evs Hi Hj. unfold at_cell. f_equal.
    apply (interleaving_filter _ _ evss tr Htr i evs Hi).
    intros k es' Hk Hes'. destruct (filter _ es') as [|e r] eqn:Ef; [reflexivity|].
    assert (He : In e (e :: r)) by (left; reflexivity). rewrite <- Ef in He. apply filter_In in He.
    destruct He as (He1 & He2). apply Z.eqb_eq in He2. pose proof (P1 k es' e Hes' He1). nia. }
  assert (Wtr : forall tr, interleaving evss tr -> within 0 (Z.of_nat (length ls * su_nbins su)) tr).
  { intros tr Htr e He. destruct (interleaving_in _ _ _ Htr e He) as (i & es & Hi & Hin).
    pose proof (P1 i es e Hi Hin). destruct (Shape i es Hi) as (_ & _ & _ & Hil). nia. }
  split; [exact P1|]. split.
  - intros add arr tr tr' La Htr Htr'.
    destruct (apply_events_spec add tr arr) as (o1 & E1 & L1 & N1); [rewrite La; apply Wtr; assumption|].
    destruct (apply_events_spec add tr' arr) as (o2 & E2 & L2 & N2); [rewrite La; apply Wtr; assumption|].
    exists o1. split; [assumption|]. rewrite E2. f_equal.
    apply (slices_ext o2 o1 (length ls) (su_nbins su)); try congruence.
    intros i j Hi Hj. rewrite N1, N2.
    destruct (nth_error evss i) as [evs|] eqn:Ei; [|apply nth_error_None in Ei; lia].
    rewrite (Cell tr Htr i j evs), (Cell tr' Htr' i j evs) by assumption. reflexivity.
  - intros tr Htr. destruct Hok as (out & I0 & L0 & V0).
    { intros i Hi. destruct (nth_error evss i) as [evs|] eqn:Ei; [|apply nth_error_None in Ei; lia].
      destruct (Shape i evs Ei) as (rel & Er & _). congruence. }
    rewrite I0.
    destruct (apply_events_spec Rplus tr (repeat 0 (length ls * su_nbins su))) as (o1 & E1 & L1 & N1).
    { rewrite repeat_length. apply Wtr. assumption. }
    rewrite E1. f_equal. rewrite repeat_length in L1.
    apply (slices_ext o1 out (length ls) (su_nbins su)); try assumption.
    intros i j Hi Hj. rewrite N1, nth_repeat0.
    destruct (nth_error evss i) as [evs|] eqn:Ei; [|apply nth_error_None in Ei; lia].
    rewrite (Cell tr Htr i j evs) by assumption.
    destruct (Shape i evs Ei) as (rel & Er & -> & _).
    rewrite (V0 i j rel) by assumption. rewrite Nat2Z.inj_add, at_cell_shift. reflexivity.
Qed.

(** ** C06: spectra are sums over particles *)

Definition particle_events (qu : quantity) (su : setup) (l : sightline) (g : gas) (d s : R) : list event :=
  let L := su_line su in let n := Z.of_nat (su_nbins su) in
  match qu with
  | Column => colden_events (su_kern su) (vbox L) (velfac L) n d (g_dens g) (su_unit su * IZR (along l g)) s
  | Depth => tau_events (su_profile su) L (su_kern su) n d (g_dens g) (su_unit su * IZR (along l g))
               (vel_along l g) (g_temp g) s
  end.

Lemma at_part_nat : forall gs k g, nth_error gs k = Some g -> at_part gs (Z.of_nat k) = Some g.
Proof.
  intros gs k g H. unfold at_part. destruct (Z.ltb_spec (Z.of_nat k) 0); [lia|]. rewrite Nat2Z.id. assumption.
Qed.

Lemma flat_index : forall (gs : list gas) k a, (3 * Z.of_nat (length gs) <= 2 ^ 31)%Z -> (k < length gs)%nat ->
  (1 <= a <= 3)%Z ->
  to_int32 (3 * Z.of_nat k + a - 1) = (3 * Z.of_nat k + (a - 1))%Z /\
  ((3 * Z.of_nat k + (a - 1)) / 3 = Z.of_nat k)%Z /\ ((3 * Z.of_nat k + (a - 1)) mod 3 = a - 1)%Z.
Proof.
  intros gs k a H Hk Ha. split; [|split].
  - rewrite to_int32_id; lia.
  - rewrite Z.mul_comm, Z.div_add_l, Z.div_small by lia. lia.
  - rewrite Z.add_comm, Z.mul_comm, Z.mod_add, Z.mod_small by lia. reflexivity.
Qed.

Lemma flat_nat : forall A (sel : gas -> A * A * A) gs k g a, (3 * Z.of_nat (length gs) <= 2 ^ 31)%Z ->
  nth_error gs k = Some g -> (a = 1 \/ a = 2 \/ a = 3)%Z ->
  flat sel gs (to_int32 (3 * Z.of_nat k + a - 1)) =
  Some (let '(x, y, z) := sel g in if (a =? 1)%Z then x else if (a =? 2)%Z then y else z).
Proof.
  intros A sel gs k g a H Hk Ha.
  assert (Hkl : (k < length gs)%nat) by (apply nth_error_Some; congruence).
  destruct (flat_index gs k a H Hkl ltac:(lia)) as (E1 & E2 & E3).
  unfold flat. rewrite E1. destruct (Z.ltb_spec (3 * Z.of_nat k + (a - 1)) 0); [lia|].
  rewrite E2, E3, Nat2Z.id, Hk. destruct (sel g) as ((x & y) & z).
  destruct Ha as [->|[->| ->]]; reflexivity.
Qed.

Lemma one_events_nat : forall qu su gs l k g d s, (3 * Z.of_nat (length gs) <= 2 ^ 31)%Z ->
  nth_error gs k = Some g -> (l_axis l = 1 \/ l_axis l = 2 \/ l_axis l = 3)%Z ->
  one_events qu su gs (l_axis l) (Z.of_nat k, (d, s)) = Some (particle_events qu su l g d s).
Proof.
  intros qu su gs l k g d s H Hk Ha. unfold one_events, particle_events.
  rewrite (at_part_nat _ _ _ Hk), (flat_nat _ g_pos gs k g _ H Hk Ha).
  destruct qu; [|reflexivity].
  rewrite (flat_nat _ g_vel gs k g _ H Hk Ha). unfold vel_along.
  destruct (g_vel g) as ((vx & vy) & vz). reflexivity.
Qed.

Lemma skips_far : forall k vb vf dr2 s, k <> Voronoi -> s * s <= dr2 -> skips k vb vf dr2 s = true.
Proof.
  intros k vb vf dr2 s Hk H. unfold skips. destruct k; try congruence;
    destruct (Rle_dec (s * s - dr2) 0); try reflexivity; lra.
Qed.

Lemma particle_events_far : forall qu su l g d s, su_kern su <> Voronoi -> s * s <= d ->
  particle_events qu su l g d s = [].
Proof.
  intros qu su l g d s Hk H. unfold particle_events, colden_events, tau_events.
  rewrite skips_far by assumption. destruct qu; reflexivity.
Qed.

Lemma rsum_superset : forall A (v : A -> R) small big, NoDup small -> NoDup big ->
  (forall z, In z small -> In z big) -> (forall z, In z big -> ~ In z small -> v z = 0) ->
  rsum (map v small) = rsum (map v big).
Proof.
  intros A v. induction small as [|a s IH]; intros big Ns Nb Hi Hz.
  - symmetry. apply rsum_zero. intros x Hx. apply in_map_iff in Hx. destruct Hx as (z & <- & Hz').
    apply Hz; auto.
  - destruct (in_split a big (Hi a (or_introl eq_refl))) as (l1 & l2 & ->).
    inversion Ns; subst.
    assert (Nb' : NoDup (l1 ++ l2)) by (eapply NoDup_remove_1; eauto).
    assert (Na : ~ In a (l1 ++ l2)) by (eapply NoDup_remove_2; eauto).
    rewrite (rsum_perm (map v (l1 ++ a :: l2)) (map v (a :: l1 ++ l2)))
      by (apply Permutation_map, Permutation_sym, Permutation_middle).
    unfold rsum. cbn [map fold_right]. fold (rsum (map v s)). fold (rsum (map v (l1 ++ l2))).
    f_equal. apply IH; try assumption.
    + intros z Hz'. specialize (Hi z (or_intror Hz')). apply in_app_iff in Hi. apply in_app_iff.
      destruct Hi as [|[->|]]; auto. contradiction.
    + intros z Hz' Hn. apply Hz.
      * apply in_app_iff in Hz'. apply in_app_iff. simpl. tauto.
      * intros [->|]; contradiction.
Qed.

(** The true squared distance, computed. *)
Definition d2_of (su : setup) (l : sightline) (g : gas) : Z :=
  calc_dr2 (su_box su) (line_first l (g_part g) - line_key l) (line_second l (g_part g) - line_key2 l).

Definition true_events (qu : quantity) (su : setup) (l : sightline) (g : gas) : list event :=
  particle_events qu su l g (su_unit su * su_unit su * IZR (d2_of su l g)) (su_unit su * IZR (p_h (g_part g))).

Lemma fold_plus : forall l a, fold_left Rplus l a = a + rsum l.
Proof.
  unfold rsum. induction l as [|x l IH]; intros a; simpl; [ring|]. rewrite IH. ring.
Qed.

Lemma single_true : forall qu su l g, (0 < su_nbins su)%nat -> good_gas su g -> good_line (su_box su) l ->
  exists arr, single qu su l g arr /\ length arr = su_nbins su /\
    forall j, nth j arr 0 = rsum (at_cell (Z.of_nat j) (true_events qu su l g)).
Proof.
  intros qu su l g Hn (G1 & G2 & G3) Hl.
  destruct (apply_events_spec Rplus (true_events qu su l g) (repeat 0 (su_nbins su))) as (arr & E & L & N).
  { rewrite repeat_length. unfold true_events, particle_events. destruct qu.
    - apply tau_events_within. lia.
    - apply colden_events_within. lia. }
  exists arr. rewrite repeat_length in L. split; [|split; [assumption|]].
  - exists (d2_of su l g). split; [apply transverse_calc; [lia|assumption|assumption]|].
    cbv zeta. destruct qu; [rewrite tau_apply|rewrite colden_apply]; exact E.
  - intros j. rewrite N, nth_repeat0, fold_plus. ring.
Qed.

Lemma single_unique : forall qu su l g a a', single qu su l g a -> single qu su l g a' -> a = a'.
Proof.
  intros qu su l g a a' (d & D & E) (d' & D' & E').
  rewrite (transverse_unique _ _ _ _ _ D' D) in E'. destruct qu; simpl in *; congruence.
Qed.

Lemma rsum_concat : forall (ls : list (list R)), rsum (concat ls) = rsum (map rsum ls).
Proof.
  induction ls as [|l ls IH]; [reflexivity|]. simpl. rewrite rsum_app, IH. reflexivity.
Qed.

Lemma at_cell_concat : forall c evs, at_cell c (concat evs) = concat (map (at_cell c) evs).
Proof. intros c. induction evs as [|e evs IH]; [reflexivity|]. simpl. rewrite at_cell_app, IH. reflexivity. Qed.

Lemma all_some_map : forall A B (f : A -> option B) (g : A -> B) l, (forall x, In x l -> f x = Some (g x)) ->
  all_some (map f l) = Some (map g l).
Proof.
  intros A B f g. induction l as [|x l IH]; intros H; [reflexivity|]. simpl.
  rewrite H by (left; reflexivity). rewrite IH; [reflexivity|]. intros y Hy. apply H. right. assumption.
Qed.

Lemma map_nth_all : forall A (f : A -> R) (gs : list A),
  map (fun n => match nth_error gs n with Some g => f g | None => 0 end) (seq 0 (length gs)) = map f gs.
Proof.
  intros A f gs.
  assert (G : forall gs' pre, map (fun n => match nth_error (pre ++ gs') n with Some g => f g | None => 0 end)
        (seq (length pre) (length gs')) = map f gs').
  { induction gs' as [|g gs' IH]; intros pre; [reflexivity|].
    cbn [length seq map]. f_equal.
    - rewrite nth_error_app2, Nat.sub_diag by lia. reflexivity.
    - specialize (IH (pre ++ [g])). rewrite app_length in IH. simpl in IH. rewrite Nat.add_1_r in IH.
      rewrite <- IH. apply map_ext. intros n. rewrite <- app_assoc. reflexivity. }
  apply (G gs []).
Qed.

(** The events of one line, for the non-Voronoi kernels. *)
Lemma line_sum : forall qu su ls gs op lists i l near, (0 < su_nbins su)%nat -> su_kern su <> Voronoi ->
  fits su ls gs -> schedule (length gs) op -> Forall (good_gas su) gs -> Forall (good_line (su_box su)) ls ->
  get_near_particles (su_box su) ls (map g_part gs) op = Some lists ->
  nth_error ls i = Some l -> nth_error lists i = Some near ->
  exists evs, rel_events qu su gs l near = Some evs /\
    forall j, rsum (at_cell (Z.of_nat j) evs) =
      rsum (map (fun g => rsum (at_cell (Z.of_nat j) (true_events qu su l g))) gs).
Proof.
  intros qu su ls gs op lists i l near Hn Hk F Ho Hgs Hls E Hl Hnear.
  assert (Hgl : good_line (su_box su) l) by (rewrite Forall_forall in Hls; apply Hls; eapply nth_error_In; eauto).
  destruct (C04_content_aux (su_box su) ls (map g_part gs) op) as (lists' & E' & Hlen & H).
  { rewrite map_length. assumption. }
  { apply (fits_parts _ _ _ F). }
  { rewrite Forall_map. eapply Forall_impl; [|exact Hgs]. intros g Hg. exact Hg. }
  { assumption. }
  rewrite E in E'. injection E' as <-.
  destruct (H i l Hl) as (m & Hm & Hs & Hin & Hcomp). rewrite Hnear in Hm. injection Hm as <-.
  assert (Ent : forall k d, In (k, d) near -> exists n g, k = Z.of_nat n /\ nth_error gs n = Some g /\
     good_gas su g /\ d = d2_of su l g).
  { intros k d Hkd. destruct (Hin k d Hkd) as (n & p & -> & Hp & Ht & _).
    rewrite nth_error_map in Hp. destruct (nth_error gs n) as [g|] eqn:Eg; [|discriminate].
    injection Hp as <-. exists n, g. split; [reflexivity|]. split; [assumption|].
    assert (Hg : good_gas su g) by (rewrite Forall_forall in Hgs; apply Hgs; eapply nth_error_In; eauto).
    split; [assumption|]. eapply transverse_unique; [exact Ht|]. destruct Hg as (A & B & C).
    apply transverse_calc; [lia|assumption|assumption]. }
  (* the targets and their events *)
  set (ev := fun e : Z * Z => match at_part gs (fst e) with Some g => true_events qu su l g | None => [] end).
  assert (TG : line_targets su gs l near = all_some (map (fun e => match at_part gs (fst e) with
         | None => None
         | Some g => Some (fst e, (su_unit su * su_unit su * IZR (snd e), su_unit su * IZR (p_h (g_part g))))
         end) near)).
  { unfold line_targets. destruct (su_kern su); try reflexivity. congruence. }
  assert (Evs : rel_events qu su gs l near = Some (concat (map ev near))).
  { unfold rel_events. rewrite TG.
    rewrite (all_some_map _ _ _ (fun e => (fst e, (su_unit su * su_unit su * IZR (snd e),
       su_unit su * IZR (match at_part gs (fst e) with Some g => p_h (g_part g) | None => 0%Z end))))).
    2:{ intros (k & d) Hkd. destruct (Ent k d Hkd) as (n & g & -> & Eg & _). cbn [fst snd].
        rewrite (at_part_nat _ _ _ Eg). reflexivity. }
    rewrite map_map, (all_some_map _ _ _ ev); [reflexivity|].
    intros (k & d) Hkd. destruct (Ent k d Hkd) as (n & g & -> & Eg & _ & ->). unfold ev. cbn [fst snd].
    rewrite (at_part_nat _ _ _ Eg).
    apply one_events_nat; [apply F|assumption|apply Hgl]. }
  exists (concat (map ev near)). split; [assumption|]. intros j.
  rewrite at_cell_concat, rsum_concat, map_map, map_map.
  (* sum over the near list, as a sum over particle numbers *)
  set (v := fun n : nat => match nth_error gs n with
     | Some g => rsum (at_cell (Z.of_nat j) (true_events qu su l g)) | None => 0 end).
  transitivity (rsum (map v (map (fun e => Z.to_nat (fst e)) near))).
  { rewrite map_map. f_equal. apply map_ext_in. intros (k & d) Hkd.
    destruct (Ent k d Hkd) as (n & g & -> & Eg & _). unfold ev, v. cbn [fst].
    rewrite (at_part_nat _ _ _ Eg), Nat2Z.id, Eg. reflexivity. }
  transitivity (rsum (map v (seq 0 (length gs)))).
  - apply rsum_superset.
    + assert (ND : NoDup (map fst near)).
      { clear - Hs. induction (map fst near) as [|a t IH]; constructor; inversion Hs; subst.
        - intros Hin. rewrite Forall_forall in H2. specialize (H2 a Hin). lia.
        - apply IH. assumption. }
      rewrite <- (map_map fst Z.to_nat).
      assert (Pos : forall k, In k (map fst near) -> (0 <= k)%Z).
      { intros k Hkk. apply in_map_iff in Hkk. destruct Hkk as ((k' & d) & <- & Hkd).
        destruct (Ent k' d Hkd) as (n & g & -> & _). simpl. lia. }
      clear - ND Pos. induction (map fst near) as [|a t IH]; simpl; constructor; inversion ND; subst.
      * intros Hin. apply in_map_iff in Hin. destruct Hin as (b & Eb & Hb).
        assert (a = b); [|subst; contradiction].
        pose proof (Pos a (or_introl eq_refl)). pose proof (Pos b (or_intror Hb)). lia.
      * apply IH; [assumption|]. intros k Hk. apply Pos. right. assumption.
    + apply seq_NoDup.
    + intros n Hnn. apply in_map_iff in Hnn. destruct Hnn as ((k & d) & <- & Hkd).
      destruct (Ent k d Hkd) as (n & g & -> & Eg & _). cbn [fst]. rewrite Nat2Z.id. apply in_seq.
      assert (n < length gs)%nat by (apply nth_error_Some; congruence). lia.
    + intros n Hnn Hnot. unfold v. destruct (nth_error gs n) as [g|] eqn:Eg; [|reflexivity].
      assert (Hg : good_gas su g) by (rewrite Forall_forall in Hgs; apply Hgs; eapply nth_error_In; eauto).
      unfold true_events. rewrite particle_events_far; [reflexivity|assumption|].
      assert (Far : (p_h (g_part g) * p_h (g_part g) <= d2_of su l g)%Z).
      { destruct (Z_lt_le_dec (d2_of su l g) (p_h (g_part g) * p_h (g_part g))) as [Hlt|]; [exfalso|assumption].
        apply Hnot. apply in_map_iff. exists (Z.of_nat n, d2_of su l g). split; [apply Nat2Z.id|].
        apply (Hcomp n (g_part g)); [rewrite nth_error_map, Eg; reflexivity| |assumption].
        destruct Hg as (A & B & C). apply transverse_calc; [lia|assumption|assumption]. }
      apply IZR_le in Far. rewrite mult_IZR in Far.
      replace (su_unit su * IZR (p_h (g_part g)) * (su_unit su * IZR (p_h (g_part g)))) with
        (su_unit su * su_unit su * (IZR (p_h (g_part g)) * IZR (p_h (g_part g)))) by ring.
      apply Rmult_le_compat_l; [nra|assumption].
  - f_equal. apply (map_nth_all _ (fun g => rsum (at_cell (Z.of_nat j) (true_events qu su l g))) gs).
Qed.

Definition px (qu : quantity) (su : setup) (l : sightline) (j : nat) (g : gas) : R :=
  rsum (at_cell (Z.of_nat j) (true_events qu su l g)).

Lemma pixel_sum_px : forall qu su l j gs x, (0 < su_nbins su)%nat -> Forall (good_gas su) gs ->
  good_line (su_box su) l -> (pixel_sum qu su l j gs x <-> x = rsum (map (px qu su l j) gs)).
Proof.
  intros qu su l j gs x Hn Hgs Hl. unfold pixel_sum. revert x.
  induction Hgs as [|g gs Hg Hgs IH]; intros x; split.
  - intros (arrs & H & ->). inversion H. reflexivity.
  - intros ->. exists []. split; [constructor|reflexivity].
  - intros (arrs & H & ->). inversion H as [|? a ? arrs' Ha Harrs]; subst. unfold rsum. cbn [map fold_right].
    destruct (single_true qu su l g Hn Hg Hl) as (a' & Sa & _ & Na).
    rewrite (single_unique _ _ _ _ _ _ Ha Sa), Na. f_equal. apply IH. exists arrs'. split; [assumption|reflexivity].
  - intros ->. destruct (single_true qu su l g Hn Hg Hl) as (a' & Sa & _ & Na).
    destruct (proj2 (IH (rsum (map (px qu su l j) gs))) eq_refl) as (arrs & H & E).
    exists (a' :: arrs). split; [constructor; assumption|]. cbn [map]. unfold rsum in *. cbn [fold_right].
    rewrite Na, E. reflexivity.
Qed.

Lemma interpolate_px : forall qu su ls gs op ol, (0 < su_nbins su)%nat -> su_kern su <> Voronoi ->
  fits su ls gs -> schedule (length gs) op -> schedule (length ls) ol ->
  Forall (good_gas su) gs -> Forall (good_line (su_box su)) ls ->
  exists out, interpolate qu su ls gs op ol = Some out /\ length out = (length ls * su_nbins su)%nat /\
  forall i l j, nth_error ls i = Some l -> (j < su_nbins su)%nat ->
    nth (i * su_nbins su + j) out 0 = rsum (map (px qu su l j) gs).
Proof.
  intros qu su ls gs op ol Hn Hk F Ho Hol Hgs Hls.
  destruct (interpolate_value qu su ls gs op ol Hn F Ho Hol) as (lists & E & Hlen & Hok & _).
  assert (Near : forall i l, nth_error ls i = Some l -> exists near, nth_error lists i = Some near).
  { intros i l Hl. assert (i < length ls)%nat by (apply nth_error_Some; congruence).
    destruct (nth_error lists i) eqn:En; [eauto|]. apply nth_error_None in En. lia. }
  assert (Evs : forall i l, nth_error ls i = Some l -> exists evs, evs_of qu su ls gs lists i = Some evs /\
     forall j, rsum (at_cell (Z.of_nat j) evs) = rsum (map (px qu su l j) gs)).
  { intros i l Hl. destruct (Near i l Hl) as (near & Hnear).
    destruct (line_sum qu su ls gs op lists i l near) as (evs & E1 & E2); try assumption.
    exists evs. split; [|assumption]. unfold evs_of. rewrite Hl, Hnear. assumption. }
  destruct Hok as (out & Eo & Lo & Ho').
  { intros i Hi. destruct (nth_error ls i) as [l|] eqn:El; [|apply nth_error_None in El; lia].
    destruct (Evs i l El) as (evs & -> & _). discriminate. }
  exists out. split; [assumption|]. split; [assumption|]. intros i l j Hl Hj.
  destruct (Evs i l Hl) as (evs & E1 & E2).
  assert (i < length ls)%nat by (apply nth_error_Some; congruence).
  rewrite (Ho' i j evs) by assumption. rewrite fold_plus, E2. ring.
Qed.

Lemma C06_pixel_sum_aux : forall qu su ls gs op ol, (0 < su_nbins su)%nat -> su_kern su <> Voronoi ->
  fits su ls gs -> schedule (length gs) op -> schedule (length ls) ol ->
  Forall (good_gas su) gs -> Forall (good_line (su_box su)) ls ->
  exists out, interpolate qu su ls gs op ol = Some out /\ length out = (length ls * su_nbins su)%nat /\
  forall i l j, nth_error ls i = Some l -> (j < su_nbins su)%nat ->
    pixel_sum qu su l j gs (nth (i * su_nbins su + j) out 0).
Proof.
  intros qu su ls gs op ol Hn Hk F Ho Hol Hgs Hls.
  destruct (interpolate_px qu su ls gs op ol Hn Hk F Ho Hol Hgs Hls) as (out & A & B & C).
  exists out. split; [assumption|]. split; [assumption|]. intros i l j Hl Hj.
  apply pixel_sum_px; try assumption; [|apply C; assumption].
  rewrite Forall_forall in Hls. apply Hls. eapply nth_error_In; eauto.
Qed.

(** ** Segments and ranks *)

Lemma px_far : forall qu su l j g, su_kern su <> Voronoi ->
  (p_h (g_part g) * p_h (g_part g) <= d2_of su l g)%Z -> px qu su l j g = 0.
Proof.
  intros qu su l j g Hk Far. unfold px, true_events. rewrite particle_events_far; [reflexivity|assumption|].
  apply IZR_le in Far. rewrite mult_IZR in Far.
  replace (su_unit su * IZR (p_h (g_part g)) * (su_unit su * IZR (p_h (g_part g)))) with
        (su_unit su * su_unit su * (IZR (p_h (g_part g)) * IZR (p_h (g_part g)))) by ring.
  apply Rmult_le_compat_l; [nra|assumption].
Qed.

Lemma in_at_cell : forall c evs x, In x (at_cell c evs) -> exists e, In e evs /\ snd e = x.
Proof.
  intros c evs x H. unfold at_cell in H. apply in_map_iff in H. destruct H as (e & <- & He).
  apply filter_In in He. exists e. tauto.
Qed.

Lemma tau_loop_events_zero : forall n tt value zs e, (forall z, value z = 0) ->
  In e (tau_loop_events n tt value zs) -> snd e = 0.
Proof.
  intros n tt value zs e H. induction zs as [|z zs IH]; simpl; [tauto|].
  intros [<-|Hin]; [apply H|]. destruct (Rlt_dec (value z) tt); [contradiction|auto].
Qed.

Lemma px_empty : forall qu su l j g, g_dens g = 0 -> px qu su l j g = 0.
Proof.
  intros qu su l j g H. unfold px. apply rsum_zero. intros x Hx. apply in_at_cell in Hx.
  destruct Hx as (e & He & <-). unfold true_events, particle_events in He. rewrite H in He. destruct qu.
  - unfold tau_events in He. destruct (skips _ _ _ _ _); [contradiction|].
    apply in_app_iff in He. destruct He as [He|He]; eapply tau_loop_events_zero; try exact He;
      intros z; cbv zeta; unfold Rdiv; ring.
  - unfold colden_events in He. destruct (skips _ _ _ _ _); [contradiction|].
    apply in_map_iff in He. destruct He as (z & <- & _). simpl. ring.
Qed.

Lemma rsum_filter : forall A (f : A -> bool) (v : A -> R) l, (forall x, In x l -> f x = false -> v x = 0) ->
  rsum (map v (filter f l)) = rsum (map v l).
Proof.
  intros A f v. induction l as [|x l IH]; intros H; [reflexivity|]. simpl.
  assert (IH' := IH (fun y Hy => H y (or_intror Hy))). unfold rsum in *.
  destruct (f x) eqn:E; simpl; rewrite IH'; [reflexivity|]. rewrite (H x (or_introl eq_refl) E). ring.
Qed.

Lemma read_particles_px : forall pos su ls gs order, su_kern su <> Voronoi -> fits su ls gs ->
  schedule (length gs) order -> Forall (good_gas su) gs -> Forall (good_line (su_box su)) ls ->
  (pos = true -> Forall (fun g => 0 <= g_dens g) gs) ->
  exists kept, read_particles pos su ls gs order = Some kept /\ (length kept <= length gs)%nat /\
    (forall g, In g kept -> In g gs) /\
    forall qu l j, In l ls -> rsum (map (px qu su l j) kept) = rsum (map (px qu su l j) gs).
Proof.
  intros pos su ls gs order Hk F Ho Hgs Hls Hpos.
  destruct (C03_content_aux (su_box su) ls (map g_part gs) order) as (s & E & Hs & Hin & Hcomp).
  { rewrite map_length. assumption. }
  { apply (fits_parts _ _ _ F). }
  { rewrite Forall_map. eapply Forall_impl; [|exact Hgs]. intros g Hg. exact Hg. }
  { assumption. }
  assert (Ent : forall k, In k s -> exists n g, k = Z.of_nat n /\ nth_error gs n = Some g).
  { intros k Hks. destruct (Hin k Hks) as (n & p & l & d & -> & Hp & _).
    rewrite nth_error_map in Hp. destruct (nth_error gs n) as [g|] eqn:Eg; [|discriminate]. eauto. }
  assert (NDs : NoDup (map Z.to_nat s)).
  { assert (Pos : forall k, In k s -> (0 <= k)%Z).
    { intros k Hks. destruct (Ent k Hks) as (n & g & -> & _). lia. }
    clear - Hs Pos. induction Hs as [|a t Ht IH Ha]; simpl; constructor.
    - intros Hin. apply in_map_iff in Hin. destruct Hin as (b & Eb & Hb).
      rewrite Forall_forall in Ha. specialize (Ha b Hb).
      pose proof (Pos a (or_introl eq_refl)). pose proof (Pos b (or_intror Hb)). lia.
    - apply IH. intros k Hk. apply Pos. right. assumption. }
  assert (Incl : incl (map Z.to_nat s) (seq 0 (length gs))).
  { intros n Hnn. apply in_map_iff in Hnn. destruct Hnn as (k & <- & Hks).
    destruct (Ent k Hks) as (n & g & -> & Eg). rewrite Nat2Z.id. apply in_seq.
    assert (n < length gs)%nat by (apply nth_error_Some; congruence). lia. }
  assert (Len : (length s <= length gs)%nat).
  { pose proof (NoDup_incl_length NDs Incl) as Hl. rewrite map_length, seq_length in Hl. assumption. }
  destruct (all_some_total _ (map (at_part gs) s)) as (kept & Ek).
  { intros o Hoo. apply in_map_iff in Hoo. destruct Hoo as (k & <- & Hks).
    destruct (Ent k Hks) as (n & g & -> & Eg). rewrite (at_part_nat _ _ _ Eg). discriminate. }
  destruct (all_some_in _ _ _ Ek) as (Lk & Nk). rewrite map_length in Lk.
  assert (Kin : forall g, In g kept -> In g gs).
  { intros g Hg. apply In_nth_error in Hg. destruct Hg as (q & Hq). specialize (Nk q).
    rewrite Hq, nth_error_map in Nk. destruct (nth_error s q) as [k|] eqn:Esq; [|discriminate].
    injection Nk as Nk. unfold at_part in Nk. destruct (k <? 0)%Z; [discriminate|]. eapply nth_error_In; eauto. }
  assert (Sum : forall qu l j, In l ls -> rsum (map (px qu su l j) kept) = rsum (map (px qu su l j) gs)).
  { intros qu l j Hl. set (v := fun n : nat => match nth_error gs n with Some g => px qu su l j g | None => 0 end).
    transitivity (rsum (map v (map Z.to_nat s))).
    - f_equal. rewrite map_map. apply SightlineProofs.nth_error_ext; [rewrite !map_length; assumption|]. intros q _. rewrite !nth_error_map. specialize (Nk q).
      rewrite nth_error_map in Nk. destruct (nth_error s q) as [k|] eqn:Esq.
      + destruct (Ent k (nth_error_In _ _ Esq)) as (n & g & -> & Eg). cbn [option_map] in Nk.
        rewrite (at_part_nat _ _ _ Eg) in Nk. destruct (nth_error kept q); [|discriminate].
        injection Nk as <-. cbn [option_map]. unfold v. rewrite Nat2Z.id, Eg. reflexivity.
      + destruct (nth_error kept q); [discriminate|reflexivity].
    - rewrite (rsum_superset _ v (map Z.to_nat s) (seq 0 (length gs))).
      + unfold v. rewrite map_nth_all. reflexivity.
      + assumption.
      + apply seq_NoDup.
      + exact Incl.
      + intros n Hnn Hnot. unfold v. destruct (nth_error gs n) as [g|] eqn:Eg; [|reflexivity].
        assert (Hg : good_gas su g) by (rewrite Forall_forall in Hgs; apply Hgs; eapply nth_error_In; eauto).
        apply px_far; [assumption|].
        destruct (Z_lt_le_dec (d2_of su l g) (p_h (g_part g) * p_h (g_part g))) as [Hlt|]; [exfalso|assumption].
        apply Hnot. apply in_map_iff. exists (Z.of_nat n). split; [apply Nat2Z.id|].
        apply (Hcomp n (g_part g)); [rewrite nth_error_map, Eg; reflexivity|].
        exists l, (d2_of su l g). split; [assumption|]. split; [|assumption].
        destruct Hg as (A & B & C). rewrite Forall_forall in Hls.
        apply transverse_calc; [lia|assumption|apply Hls; assumption]. }
  unfold read_particles. rewrite E, Ek. destruct pos.
  - exists (filter (fun g => if Rlt_dec 0 (g_dens g) then true else false) kept).
    split; [reflexivity|]. split; [|split].
    + clear - Lk Len. assert (length (filter (fun g => if Rlt_dec 0 (g_dens g) then true else false) kept) <= length kept)%nat; [|lia].
      clear. induction kept as [|g k IH]; simpl; [lia|]. destruct (Rlt_dec 0 (g_dens g)); simpl; lia.
    + intros g Hg. apply filter_In in Hg. apply Kin. tauto.
    + intros qu l j Hl. rewrite rsum_filter; [apply Sum; assumption|].
      intros g Hg Hd. apply px_empty. specialize (Hpos eq_refl). rewrite Forall_forall in Hpos.
      specialize (Hpos g (Kin g Hg)). destruct (Rlt_dec 0 (g_dens g)); [discriminate|]. lra.
  - exists kept. split; [reflexivity|]. split; [lia|]. split; assumption.
Qed.

Lemma segment_px : forall qu pos su ls s, (0 < su_nbins su)%nat -> su_kern su <> Voronoi ->
  Forall (good_line (su_box su)) ls -> segment_ok pos su ls s ->
  exists out, interpolate_segment qu pos su ls (fst s) (snd s) = Some out /\
    length out = (length ls * su_nbins su)%nat /\
    forall i l j, nth_error ls i = Some l -> (j < su_nbins su)%nat ->
      nth (i * su_nbins su + j) out 0 = rsum (map (px qu su l j) (fst s)).
Proof.
  intros qu pos su ls (gs & (o1 & (o2 & o3))) Hn Hk Hls (Hgs & F & Hpos & Hs1 & Hs2 & Hs3). cbn [fst snd] in *.
  destruct (read_particles_px pos su ls gs o1 Hk F Hs1 Hgs Hls Hpos) as (kept & E & Lk & Kin & Sum).
  specialize (Hs2 kept E).
  assert (Hkept : Forall (good_gas su) kept).
  { rewrite Forall_forall in *. intros g Hg. apply Hgs, Kin, Hg. }
  assert (Fk : fits su ls kept) by (destruct F; split; lia).
  destruct (interpolate_px qu su ls kept o2 o3 Hn Hk Fk Hs2 Hs3 Hkept Hls) as (out & Eo & Lo & Vo).
  unfold interpolate_segment. cbn [fst snd]. rewrite E. destruct kept as [|g0 kept].
  - exists (repeat 0 (length ls * su_nbins su)). split; [reflexivity|]. split; [apply repeat_length|].
    intros i l j Hl Hj. rewrite nth_repeat0, <- Sum by (eapply nth_error_In; eauto). reflexivity.
  - exists out. split; [assumption|]. split; [assumption|]. intros i l j Hl Hj.
    rewrite (Vo i l j Hl Hj). apply Sum. eapply nth_error_In; eauto.
Qed.

Lemma add_arrays_spec : forall a b, length a = length b ->
  length (add_arrays a b) = length a /\ forall k, nth k (add_arrays a b) 0 = nth k a 0 + nth k b 0.
Proof.
  induction a as [|x a IH]; intros [|y b] H; try discriminate.
  - split; [reflexivity|]. intros [|k]; simpl; ring.
  - destruct (IH b) as (H1 & H2); [injection H; auto|]. split; [simpl; congruence|].
    intros [|k]; [reflexivity|]. simpl. apply H2.
Qed.

Definition computes (su : setup) (ls : list sightline) (r : option (list R)) (v : sightline -> nat -> R) : Prop :=
  exists out, r = Some out /\ length out = (length ls * su_nbins su)%nat /\
    forall i l j, nth_error ls i = Some l -> (j < su_nbins su)%nat -> nth (i * su_nbins su + j) out 0 = v l j.

Lemma computes_add : forall su ls r r' v v', computes su ls r v -> computes su ls r' v' ->
  computes su ls (match r, r' with Some a, Some b => Some (add_arrays a b) | _, _ => None end)
    (fun l j => v l j + v' l j).
Proof.
  intros su ls r r' v v' (a & -> & La & Va) (b & -> & Lb & Vb).
  destruct (add_arrays_spec a b) as (L1 & N1); [congruence|].
  exists (add_arrays a b). split; [reflexivity|]. split; [congruence|].
  intros i l j Hl Hj. rewrite N1, (Va i l j Hl Hj), (Vb i l j Hl Hj). reflexivity.
Qed.

Lemma computes_ext : forall su ls r v v', (forall l j, v l j = v' l j) -> computes su ls r v -> computes su ls r v'.
Proof.
  intros su ls r v v' H (a & E & L & V). exists a. split; [assumption|]. split; [assumption|].
  intros i l j Hl Hj. rewrite <- H. apply V; assumption.
Qed.

Lemma compute_rank_px : forall qu pos su ls first rest, (0 < su_nbins su)%nat -> su_kern su <> Voronoi ->
  Forall (good_line (su_box su)) ls -> segment_ok pos su ls first -> Forall (segment_ok pos su ls) rest ->
  computes su ls (compute_rank qu pos su ls first rest)
    (fun l j => rsum (map (px qu su l j) (fst first ++ concat (map fst rest)))).
Proof.
  intros qu pos su ls first rest Hn Hk Hls Hf Hr. unfold compute_rank.
  assert (G : forall rest acc gs, Forall (segment_ok pos su ls) rest ->
     computes su ls acc (fun l j => rsum (map (px qu su l j) gs)) ->
     computes su ls (fold_left (fun acc s => match acc, interpolate_segment qu pos su ls (fst s) (snd s) with
        | Some a, Some b => Some (add_arrays a b) | _, _ => None end) rest acc)
       (fun l j => rsum (map (px qu su l j) (gs ++ concat (map fst rest))))).
  { clear first rest Hf Hr. induction rest as [|s rest IH]; intros acc gs Hr Ha.
    - simpl. rewrite app_nil_r. assumption.
    - inversion Hr; subst. cbn [fold_left map concat]. rewrite app_assoc. apply IH; [assumption|].
      eapply computes_ext; [|apply computes_add; [exact Ha|apply (segment_px qu pos su ls s); assumption]].
      intros l j. cbv beta. rewrite map_app, rsum_app. reflexivity. }
  apply G; [assumption|]. apply (segment_px qu pos su ls first); assumption.
Qed.

Lemma compute_spectra_px : forall qu pos su ls ranks, (0 < su_nbins su)%nat -> su_kern su <> Voronoi ->
  Forall (good_line (su_box su)) ls ->
  Forall (fun r => segment_ok pos su ls (fst r) /\ Forall (segment_ok pos su ls) (snd r)) ranks ->
  computes su ls (compute_spectra qu pos su ls ranks)
    (fun l j => rsum (map (px qu su l j) (all_gas ranks))).
Proof.
  intros qu pos su ls ranks Hn Hk Hls Hr. unfold compute_spectra, all_gas.
  assert (G : forall ranks acc gs,
     Forall (fun r => segment_ok pos su ls (fst r) /\ Forall (segment_ok pos su ls) (snd r)) ranks ->
     computes su ls acc (fun l j => rsum (map (px qu su l j) gs)) ->
     computes su ls (fold_left (fun acc r => match acc, compute_rank qu pos su ls (fst r) (snd r) with
        | Some a, Some b => Some (add_arrays a b) | _, _ => None end) ranks acc)
       (fun l j => rsum (map (px qu su l j)
          (gs ++ concat (map (fun r => fst (fst r) ++ concat (map fst (snd r))) ranks))))).
  { clear ranks Hr. induction ranks as [|r ranks IH]; intros acc gs Hr Ha.
    - simpl. rewrite app_nil_r. assumption.
    - inversion Hr as [|? ? (H1 & H2) H3]; subst. cbn [fold_left map concat]. rewrite app_assoc. apply IH; [assumption|].
      eapply computes_ext; [|apply computes_add; [exact Ha|apply (compute_rank_px qu pos su ls (fst r) (snd r)); assumption]].
      intros l j. cbv beta. rewrite !map_app, !rsum_app. reflexivity. }
  apply (G ranks _ []); [assumption|].
  exists (repeat 0 (length ls * su_nbins su)). split; [reflexivity|]. split; [apply repeat_length|].
  intros i l j _ _. apply nth_repeat0.
Qed.

Lemma all_gas_good : forall pos su ls ranks,
  Forall (fun r => segment_ok pos su ls (fst r) /\ Forall (segment_ok pos su ls) (snd r)) ranks ->
  Forall (good_gas su) (all_gas ranks).
Proof.
  intros pos su ls ranks H. unfold all_gas. induction H as [|r ranks (H1 & H2) _ IH]; simpl; [constructor|].
  apply Forall_app. split; [|assumption]. apply Forall_app. split; [apply H1|].
  destruct r as (f & rest). cbn [fst snd] in *. clear - H2. induction H2 as [|s rest Hs Hrest IH]; simpl; [constructor|]. apply Forall_app. split; [apply Hs|assumption].
Qed.

Lemma C06_ranks_aux : forall qu pos su ls ranks, (0 < su_nbins su)%nat -> su_kern su <> Voronoi ->
  Forall (good_line (su_box su)) ls ->
  Forall (fun r => segment_ok pos su ls (fst r) /\ Forall (segment_ok pos su ls) (snd r)) ranks ->
  exists out, compute_spectra qu pos su ls ranks = Some out /\
    length out = (length ls * su_nbins su)%nat /\
    forall i l j, nth_error ls i = Some l -> (j < su_nbins su)%nat ->
      pixel_sum qu su l j (all_gas ranks) (nth (i * su_nbins su + j) out 0).
Proof.
  intros qu pos su ls ranks Hn Hk Hls Hr.
  destruct (compute_spectra_px qu pos su ls ranks Hn Hk Hls Hr) as (out & E & L & V).
  exists out. split; [assumption|]. split; [assumption|]. intros i l j Hl Hj.
  apply pixel_sum_px; try assumption; [eapply all_gas_good; eassumption| |apply V; assumption].
  rewrite Forall_forall in Hls. apply Hls. eapply nth_error_In; eauto.
Qed.

Lemma computes_unique : forall su ls r r' v v', computes su ls r v -> computes su ls r' v' ->
  (forall l j, In l ls -> v l j = v' l j) -> r = r'.
Proof.
  intros su ls r r' v v' (a & -> & La & Va) (b & -> & Lb & Vb) H. f_equal.
  apply (slices_ext a b (length ls) (su_nbins su)); try assumption. intros i j Hi Hj.
  destruct (nth_error ls i) as [l|] eqn:El; [|apply nth_error_None in El; lia].
  rewrite (Va i l j El Hj), (Vb i l j El Hj). apply H. eapply nth_error_In; eauto.
Qed.

Lemma C06_split_aux : forall qu pos pos' su ls ranks ranks', (0 < su_nbins su)%nat -> su_kern su <> Voronoi ->
  Forall (good_line (su_box su)) ls ->
  Forall (fun r => segment_ok pos su ls (fst r) /\ Forall (segment_ok pos su ls) (snd r)) ranks ->
  Forall (fun r => segment_ok pos' su ls (fst r) /\ Forall (segment_ok pos' su ls) (snd r)) ranks' ->
  Permutation (all_gas ranks) (all_gas ranks') ->
  compute_spectra qu pos su ls ranks = compute_spectra qu pos' su ls ranks'.
Proof.
  intros qu pos pos' su ls ranks ranks' Hn Hk Hls Hr Hr' P.
  eapply computes_unique; [apply compute_spectra_px; assumption|apply compute_spectra_px; assumption|].
  intros l j _. cbv beta. apply rsum_perm, Permutation_map, P.
Qed.

Lemma C06_whole_aux : forall qu pos su ls ranks gs op ol, (0 < su_nbins su)%nat -> su_kern su <> Voronoi ->
  Forall (good_line (su_box su)) ls ->
  Forall (fun r => segment_ok pos su ls (fst r) /\ Forall (segment_ok pos su ls) (snd r)) ranks ->
  Permutation (all_gas ranks) gs -> fits su ls gs -> schedule (length gs) op -> schedule (length ls) ol ->
  compute_spectra qu pos su ls ranks = interpolate qu su ls gs op ol.
Proof.
  intros qu pos su ls ranks gs op ol Hn Hk Hls Hr P F Ho Hol.
  eapply computes_unique; [apply compute_spectra_px; assumption| |].
  - apply (interpolate_px qu su ls gs op ol); try assumption.
    eapply Permutation_Forall; [exact P|]. eapply all_gas_good; eassumption.
  - intros l j _. cbv beta. apply rsum_perm, Permutation_map, P.
Qed.

(** ** Loading everything first *)

Definition kept_by (pos : bool) (su : setup) (ls : list sightline) (g : gas) : bool :=
  match get_near_lines (su_box su) ls (g_part g) with
  | Some (_ :: _) => if pos then (if Rlt_dec 0 (g_dens g) then true else false) else true
  | _ => false
  end.

Lemma all_some_app : forall A (a b : list (option A)), all_some (a ++ b) =
  match all_some a, all_some b with Some x, Some y => Some (x ++ y) | _, _ => None end.
Proof.
  induction a as [|[x|] a IH]; intros b; simpl; [destruct (all_some b); reflexivity| |reflexivity].
  rewrite IH. destruct (all_some a); [|reflexivity]. destruct (all_some b); reflexivity.
Qed.

Lemma set_insert_last : forall k s, zsorted s -> (forall k', In k' s -> (k' < k)%Z) -> set_insert k s = s ++ [k].
Proof.
  intros k s Hs Hk. destruct (set_insert_spec k s Hs) as (S1 & I1). apply zsorted_ext; [assumption| |].
  - clear S1 I1. induction Hs as [|a t Ht IH Ha]; simpl.
    + constructor; constructor.
    + constructor; [apply IH; intros; apply Hk; right; assumption|]. apply Forall_app. split; [assumption|].
      constructor; [|constructor]. apply Hk. left. reflexivity.
  - intros k'. rewrite I1, in_app_iff. simpl. intuition.
Qed.

Lemma read_particles_filter : forall pos su ls gs order, (Z.of_nat (length gs) <= 2 ^ 31)%Z ->
  schedule (length gs) order ->
  read_particles pos su ls gs order = Some (filter (kept_by pos su ls) gs).
Proof.
  intros pos su ls gs order Hsz Ho. unfold read_particles.
  rewrite py_near_lines_schedule by (rewrite map_length; assumption). rewrite map_length.
  unfold py_near_lines.
  assert (G : forall suf pre s, gs = pre ++ suf -> zsorted s ->
     (forall k, In k s -> (0 <= k < Z.of_nat (length pre))%Z) ->
     all_some (map (at_part gs) s) = Some (filter (kept_by false su ls) pre) ->
     exists s', fold_left (near_lines_step (su_box su) ls (map g_part gs)) (seq (length pre) (length suf)) (Some s) = Some s' /\
       all_some (map (at_part gs) s') = Some (filter (kept_by false su ls) gs)).
  { induction suf as [|g suf IH]; intros pre s Hg Hs Hr Ha.
    - exists s. split; [reflexivity|]. rewrite app_nil_r in Hg. subst. assumption.
    - cbn [length seq fold_left]. unfold near_lines_step at 2.
      assert (Eg : nth_error gs (length pre) = Some g) by (rewrite Hg, nth_error_app2, Nat.sub_diag by lia; reflexivity).
      rewrite nth_error_map, Eg. cbn [option_map].
      assert (Hpl : (length pre < length gs)%nat) by (apply nth_error_Some; congruence).
      destruct (get_near_lines_spec (su_box su) ls (g_part g)) as (m & Em & _). rewrite Em.
      specialize (IH (pre ++ [g])). rewrite app_length in IH. cbn [length] in IH. rewrite Nat.add_1_r in IH.
      assert (Hg' : gs = (pre ++ [g]) ++ suf) by (rewrite <- app_assoc; assumption).
      destruct m as [|kd m].
      + apply IH; try assumption.
        * intros k Hk. specialize (Hr k Hk). lia.
        * rewrite filter_app. cbn [filter]. unfold kept_by at 2. rewrite Em, app_nil_r. assumption.
      + rewrite to_int32_id by lia.
        rewrite set_insert_last; [|assumption|intros k Hk; specialize (Hr k Hk); lia].
        apply IH; try assumption.
        * rewrite <- set_insert_last; [|assumption|intros k Hk; specialize (Hr k Hk); lia].
          apply set_insert_spec. assumption.
        * intros k Hk. apply in_app_iff in Hk. destruct Hk as [Hk|[<-|[]]]; [specialize (Hr k Hk)|]; lia.
        * rewrite map_app, all_some_app, Ha, filter_app. cbn [map all_some].
          rewrite (at_part_nat _ _ _ Eg). cbn [option_map filter]. unfold kept_by at 3. rewrite Em. reflexivity. }
  destruct (G gs [] []) as (s' & E1 & E2); try reflexivity; [constructor|intros k []|].
  cbn [length] in E1. rewrite E1, E2. f_equal. destruct pos; [|reflexivity].
  clear. induction gs as [|g gs IH]; [reflexivity|]. cbn [filter].
  assert (K : kept_by true su ls g = if kept_by false su ls g then (if Rlt_dec 0 (g_dens g) then true else false) else false).
  { unfold kept_by. destruct (get_near_lines _ _ _) as [[|kd m]|]; reflexivity. }
  rewrite K. destruct (kept_by false su ls g); [|exact IH]. cbn [filter]. rewrite IH. reflexivity.
Qed.

Lemma load_all_filter : forall pos su ls segs,
  Forall (fun s => (Z.of_nat (length (fst s)) <= 2 ^ 31)%Z /\ schedule (length (fst s)) (snd s)) segs ->
  load_all pos su ls segs = Some (filter (kept_by pos su ls) (concat (map fst segs))).
Proof.
  intros pos su ls segs H. unfold load_all. induction H as [|s segs (H1 & H2) _ IH]; [reflexivity|].
  cbn [map all_some concat]. rewrite read_particles_filter by assumption.
  rewrite filter_app. destruct (all_some _); [|discriminate]. cbn [option_map concat] in *.
  injection IH as ->. reflexivity.
Qed.

Lemma C06_loaded_aux : forall qu pos su ls segs order op ol,
  Forall (fun s => (Z.of_nat (length (fst s)) <= 2 ^ 31)%Z /\ schedule (length (fst s)) (snd s)) segs ->
  (Z.of_nat (length (concat (map fst segs))) <= 2 ^ 31)%Z ->
  schedule (length (concat (map fst segs))) order ->
  interpolate_loaded qu pos su ls segs op ol =
  interpolate_segment qu pos su ls (concat (map fst segs)) (order, (op, ol)).
Proof.
  intros qu pos su ls segs order op ol H Hsz Ho. unfold interpolate_loaded, interpolate_segment.
  cbn [fst snd]. rewrite load_all_filter, read_particles_filter by assumption. reflexivity.
Qed.

(** ** Where the limits are needed *)

(** Identical cells: the first one receives the whole line. *)
Lemma identical_cells : forall box yp zp c m, RESO <= box -> 0 <= yp <= box -> 0 <= zp <= box ->
  inside_box box c ->
  exists segs, assign_cells box yp zp (repeat c (S m)) = Segments segs /\ length segs = S m /\
    (0 <= fst (nth 0 segs (0, 0)) <= snd (nth 0 segs (0, 0)) /\ snd (nth 0 segs (0, 0)) <= 2 * box /\
     snd (nth 0 segs (0, 0)) - fst (nth 0 segs (0, 0)) = box) /\
    forall k, (0 < k < S m)%nat -> 2 * box < fst (nth k segs (0, 0)).
Proof.
  intros box yp zp c m Hb Hy Hz Hc.
  assert (HL : 0 < box) by (unfold RESO in Hb; lra).
  assert (Hin : Forall (inside_box box) (repeat c (S m))).
  { apply Forall_forall. intros c' H. apply repeat_spec in H. subst. assumption. }
  set (N := grid_size box). set (x := fun i => (INR i + / 2) * (box / INR N)).
  assert (X : forall i, (i < N)%nat -> 0 <= x i <= box) by (intros i Hi; apply (grid_point_inside box i Hb Hi)).
  assert (Near : forall i, (i < N)%nat -> is_nearest box (repeat c (S m)) (x i) yp zp 0).
  { intros i Hi. exists c, (dist2 box yp zp (x i) c). split; [reflexivity|].
    split; [apply dist2_spec; auto|]. intros m' c' d' Hm' Hd'.
    apply nth_error_In, repeat_spec in Hm'. subst c'. split; [|lia].
    rewrite (cell_distance2_unique _ _ _ _ _ _ _ Hd' (dist2_spec box yp zp (x i) c HL Hc (X i Hi) Hy Hz)). lra. }
  pose proof (grid_size_pos box Hb) as HN. fold N in HN.
  destruct (C14_tiling_aux box yp zp (repeat c (S m)) Hb Hy Hz) as (segs & E & Ls & H1 & H2); try assumption.
  { discriminate. }
  { intros p Hp. right. rewrite (is_nearest_unique _ _ _ _ _ _ _ Hp (Near 0%nat HN)). exact Near. }
  rewrite repeat_length in Ls. exists segs. split; [assumption|]. split; [assumption|].
  assert (Oth : forall k, (0 < k < S m)%nat -> 2 * box < fst (nth k segs (0, 0))).
  { intros k Hk. destruct (H1 k (nth k segs (0, 0))) as [(A & _)|(_ & _ & (i & Hi & Hn) & _)].
    - apply nth_error_nth'. lia.
    - assumption.
    - exfalso. pose proof (is_nearest_unique _ _ _ _ _ _ _ Hn (Near i Hi)). lia. }
  split; [|assumption].
  destruct (H1 0%nat (nth 0 segs (0, 0))) as [(_ & A)|(A & B & _)].
  - apply nth_error_nth'. lia.
  - exfalso. apply (A 0%nat HN). apply Near. assumption.
  - split; [lra|]. split; [assumption|].
    destruct segs as [|s0 rest]; [discriminate|]. cbn [nth] in A, B |- *.
    unfold rsum in H2. cbn [map fold_right] in H2. destruct (Rlt_dec (2 * box) (fst s0)); [lra|].
    fold (rsum (map (fun s => if Rlt_dec (2 * box) (fst s) then 0 else snd s - fst s) rest)) in H2.
    rewrite rsum_zero in H2; [lra|]. intros v Hv. apply in_map_iff in Hv. destruct Hv as (s & <- & Hs).
    apply In_nth_error in Hs. destruct Hs as (k & Hk).
    assert (k < length rest)%nat by (apply nth_error_Some; congruence).
    specialize (Oth (S k)). cbn [length] in Ls. cbn [nth] in Oth. rewrite (nth_error_nth _ _ _ Hk) in Oth.
    destruct (Rlt_dec (2 * box) (fst s)); [reflexivity|]. exfalso. apply n0. apply Oth. lia.
Qed.

Definition vor_gas : gas := mkGas (mkPart 5 5 5 1) (0, 0, 0) 1 1.
Definition vor_setup (profile : R -> R -> R) : setup :=
  mkSetup Voronoi 1 10 1 (mkAbs 0 1 1 1 1 10) profile.
Definition vor_line : sightline := mkLine 1 0 5 5.

Lemma vor_run : forall profile m near, (m < 2)%nat ->
  near = map (fun k => (Z.of_nat k, 0%Z)) (seq 0 (S m)) ->
  run_line Column (vor_setup profile) (repeat vor_gas (S m)) vor_line near [0] = Some [10].
Proof.
  intros profile m near Hm ->. unfold run_line, line_targets.
  set (su := vor_setup profile).
  assert (C : all_some (map (fun e : Z * Z => cell_of su (repeat vor_gas (S m)) (l_axis vor_line) (fst e))
       (map (fun k => (Z.of_nat k, 0%Z)) (seq 0 (S m)))) = Some (repeat (mkCell (1 * 5) (1 * 5) (1 * 5)) (S m))).
  { destruct m as [|[|m]]; [reflexivity|reflexivity|lia]. }
  change (su_kern su) with Voronoi. cbv iota. rewrite C. clear C.
  change (su_unit su) with 1. change (IZR (su_box su)) with 10.
  change (IZR (line_coord vor_line (l_axis vor_line mod 3))) with 5.
  change (IZR (line_coord vor_line ((l_axis vor_line + 1) mod 3))) with 5.
  destruct (identical_cells (1 * 10) (1 * 5) (1 * 5) (mkCell (1 * 5) (1 * 5) (1 * 5)) m) as (segs & E & Ls & (A & B & D) & Oth);
    try (unfold RESO; lra).
  { repeat split; simpl; lra. }
  rewrite E. clear E.
  assert (First : forall gs s0, nth_error gs 0 = Some vor_gas -> s0 = nth 0 segs (0, 0) ->
     add_one Column su gs (l_axis vor_line) (0%Z, s0) [0] = Some [10]).
  { intros gs (lo & hi) Hg Es. rewrite <- Es in A, B, D. cbn [fst snd] in A, B, D.
    destruct gs as [|g gs]; [discriminate|]. injection Hg as ->.
    change (add_one Column su (vor_gas :: gs) (l_axis vor_line) (0%Z, (lo, hi)) [0]) with
      (add_colden_particle Voronoi 10 1 (Z.of_nat 1) lo 1 (1 * 5) hi [0]).
    destruct (C07_voronoi_aux 10 1 1 lo hi 1 (1 * 5) [0]) as (arr & Ea & Sa); try lra; try lia; try reflexivity.
    destruct (colden_total_function Voronoi 10 1 1 lo 1 (1 * 5) hi [0]) as (arr' & Ea' & La'); [lia|reflexivity|].
    rewrite Ea. rewrite Ea in Ea'. injection Ea' as <-. destruct arr as [|v [|? ?]]; try discriminate La'.
    f_equal. f_equal. unfold rsum in Sa. simpl in Sa. lra. }
  assert (Other : forall gs s1, nth_error gs 1 = Some vor_gas -> 2 * (1 * 10) < fst s1 ->
     add_one Column su gs (l_axis vor_line) (1%Z, s1) [10] = Some [10]).
  { intros gs (lo & hi) Hg Es. cbn [fst] in Es.
    destruct gs as [|g0 [|g gs]]; try discriminate. injection Hg as ->.
    change (add_one Column su (g0 :: vor_gas :: gs) (l_axis vor_line) (1%Z, (lo, hi)) [10]) with
      (add_colden_particle Voronoi 10 1 (Z.of_nat 1) lo 1 (1 * 5) hi [10]).
    apply colden_skip. simpl. lra. }
  destruct m as [|[|m]]; [| |lia].
  - destruct segs as [|s0 [|? ?]]; try discriminate Ls. cbn [repeat seq map combine fst fold_left].
    apply First; reflexivity.
  - destruct segs as [|s0 [|s1 [|? ?]]]; try discriminate Ls. cbn [repeat seq map combine fst fold_left].
    change (Z.of_nat 0) with 0%Z. change (Z.of_nat 1) with 1%Z.
    rewrite First by reflexivity. apply Other; [reflexivity|]. apply (Oth 1%nat). lia.
Qed.

Lemma vor_interpolate : forall profile m, (m < 2)%nat ->
  interpolate Column (vor_setup profile) [vor_line] (repeat vor_gas (S m)) (seq 0 (S m)) [0%nat] = Some [10].
Proof.
  intros profile m Hm. unfold interpolate.
  assert (E : get_near_particles (su_box (vor_setup profile)) [vor_line] (map g_part (repeat vor_gas (S m))) (seq 0 (S m)) =
     Some [map (fun k => (Z.of_nat k, 0%Z)) (seq 0 (S m))]).
  { destruct m as [|[|m]]; [reflexivity|reflexivity|lia]. }
  rewrite E. unfold loop_lines. cbn [fold_left nth_error length].
  change (line_offset (vor_setup profile) 0) with 0%nat. unfold at_offset.
  change (repeat 0 (1 * su_nbins (vor_setup profile))) with [0]. cbn [skipn firstn].
  rewrite (vor_run profile m _ Hm eq_refl). reflexivity.
Qed.

Lemma C06_voronoi_aux : forall profile, exists su ls g, su_kern su = Voronoi /\ su_profile su = profile /\
  good_gas su g /\ Forall (good_line (su_box su)) ls /\
  interpolate Column su ls [g; g] [0%nat; 1%nat] [0%nat] = Some [10] /\
  interpolate Column su ls [g] [0%nat] [0%nat] = Some [10] /\
  compute_spectra Column false su ls
    [(([g], ([0%nat], ([0%nat], [0%nat]))), []); (([g], ([0%nat], ([0%nat], [0%nat]))), [])] = Some [20].
Proof.
  intros profile. exists (vor_setup profile), [vor_line], vor_gas.
  split; [reflexivity|]. split; [reflexivity|]. split.
  { unfold good_gas, good_particle, inside. simpl. lia. }
  split. { constructor; [|constructor]. unfold good_line, inside. simpl. lia. }
  split; [apply (vor_interpolate profile 1); lia|]. split; [apply (vor_interpolate profile 0); lia|].
  assert (R1 : interpolate_segment Column false (vor_setup profile) [vor_line] [vor_gas] ([0%nat], ([0%nat], [0%nat])) = Some [10]).
  { unfold interpolate_segment. cbn [fst snd].
    change (read_particles false (vor_setup profile) [vor_line] [vor_gas] [0%nat]) with (Some [vor_gas]).
    apply (vor_interpolate profile 0). lia. }
  unfold compute_spectra, compute_rank. cbn [fold_left fst snd]. rewrite R1.
  cbn [length repeat su_nbins vor_setup Nat.mul Nat.add add_arrays]. f_equal. f_equal. ring.
Qed.

(** 3*ipart+axis-1 overflows an int. *)
Definition ovf_gas : gas := mkGas (mkPart 1 1 1 2) (0, 0, 0) 1 1.
Definition ovf_setup (profile : R -> R -> R) : setup :=
  mkSetup TopHat 1 10 1 (mkAbs 0 1 1 1 1 10) profile.

Lemma some_inj : forall A (a b : A), Some a = Some b -> a = b.
Proof. intros A a b H. injection H. trivial. Qed.

Lemma C06_overflow_aux : forall profile, exists su ls gs, su_kern su = TopHat /\ su_profile su = profile /\
  Forall (good_gas su) gs /\ Forall (good_line (su_box su)) ls /\ (Z.of_nat (length gs) <= 2 ^ 31)%Z /\
  forall qu op ol, schedule (length gs) op -> schedule (length ls) ol -> interpolate qu su ls gs op ol = None.
Proof.
  intros profile.
  assert (Hex : exists many, Z.of_nat many = 715827883%Z) by (exists (Z.to_nat 715827883); apply Z2Nat.id; discriminate).
  destruct Hex as (many & Hmany). set (gs := repeat ovf_gas many). set (l := mkLine 3 1 1 0).
  exists (ovf_setup profile), [l], gs.
  assert (Hlen : length gs = many) by apply repeat_length.
  assert (Hg : good_gas (ovf_setup profile) ovf_gas) by (unfold good_gas, good_particle, inside; simpl; lia).
  assert (Hgl : good_line 10 l) by (unfold good_line, inside; simpl; lia).
  assert (Hgs : Forall (good_gas (ovf_setup profile)) gs).
  { apply Forall_forall. intros g Hin. apply repeat_spec in Hin. rewrite Hin. assumption. }
  split; [reflexivity|]. split; [reflexivity|]. split; [assumption|].
  split; [constructor; [assumption|constructor]|]. split; [lia|].
  intros qu op ol Ho Hol. unfold interpolate.
  destruct (C04_content_aux 10 [l] (map g_part gs) op) as (lists & E & Ll & H).
  { rewrite map_length. assumption. }
  { rewrite map_length. lia. }
  { rewrite Forall_map. eapply Forall_impl; [|exact Hgs]. intros g A. exact A. }
  { constructor; [assumption|constructor]. }
  change (su_box (ovf_setup profile)) with 10%Z. rewrite E.
  destruct (H 0%nat l eq_refl) as (near & Hn & _ & _ & Hc).
  assert (Hin : In (Z.of_nat (many - 1), 0%Z) near).
  { apply (Hc (many - 1)%nat (g_part ovf_gas)).
    - rewrite nth_error_map. unfold gs. rewrite nth_error_repeat by lia. reflexivity.
    - exists 0%Z, 0%Z. split; [reflexivity|]. right; right. simpl. split; [reflexivity|].
      split; split; try (exists 0%Z; lia); intros; lia.
    - simpl. lia. }
  assert (None1 : rel_events qu (ovf_setup profile) gs l near = None).
  { unfold rel_events. destruct (line_targets (ovf_setup profile) gs l near) as [ts|] eqn:Et; [|reflexivity].
    unfold line_targets in Et. cbn [su_kern ovf_setup] in Et. apply all_some_in in Et. destruct Et as (_ & Et).
    apply In_nth_error in Hin. destruct Hin as (q & Hq). specialize (Et q). rewrite nth_error_map, Hq in Et.
    cbn [option_map fst] in Et.
    assert (Ea : at_part gs (Z.of_nat (many - 1)) = Some ovf_gas).
    { apply at_part_nat. apply nth_error_repeat. lia. }
    rewrite Ea in Et. destruct (nth_error ts q) as [t|] eqn:Etq; [|discriminate]. apply some_inj, some_inj in Et. subst t.
    destruct (all_some (map (one_events qu (ovf_setup profile) gs (l_axis l)) ts)) as [es|] eqn:Ee; [|reflexivity].
    apply all_some_in in Ee. destruct Ee as (_ & Ee). specialize (Ee q). rewrite nth_error_map, Etq in Ee.
    cbn [option_map] in Ee. destruct (nth_error es q) as [ev|]; [|discriminate]. apply some_inj in Ee.
    exfalso. unfold one_events in Ee. rewrite Ea in Ee.
    assert (Ef : flat g_pos gs (to_int32 (3 * Z.of_nat (many - 1) + l_axis l - 1)) = None).
    { unfold flat. replace (Z.of_nat (many - 1)) with 715827882%Z by lia. reflexivity. }
    rewrite Ef in Ee. discriminate Ee. }
  apply (loop_lines_none qu (ovf_setup profile) [l] gs lists ol _ 0).
  - apply (perm_seq_in _ _ Hol). simpl. lia.
  - unfold evs_of. cbn [nth_error]. destruct lists as [|near' rest]; [discriminate|].
    injection Hn as ->. assumption.
Qed.

(** Proofs about the particle search. *)
From Coq Require Import ZArith List Bool Lia Sorting.Sorted Permutation.
From Verif Require Import Containers ContainersProofs IndexModel IndexSpec.
Import ListNotations.
Open Scope Z_scope.

(** ** The periodic distance *)

Lemma fold_dist_ok : forall L a b, 0 < L -> inside L a -> inside L b ->
  periodic_distance L a b (fold_dist L (a - b)).
Proof.
  unfold periodic_distance, fold_dist, inside. intros L a b HL Ha Hb.
  assert (Ht : Z.abs (a - b) <= L) by lia.
  set (t := a - b) in *. clearbody t.
  assert (Hk : forall k, k = 0 \/ (1 <= k /\ L <= k * L) \/ (k <= -1 /\ k * L <= - L)).
  { intros k. assert (k = 0 \/ 1 <= k \/ k <= -1) as [H|[H|H]] by lia; [left; auto|right; left|right; right]; nia. }
  destruct (Z.ltb_spec L (2 * Z.abs t)) as [Hc|Hc].
  - split.
    + destruct (Z.le_gt_cases 0 t); [exists (-1)|exists 1]; lia.
    + intros k. destruct (Hk k) as [->|[[H1 H2]|[H1 H2]]]; lia.
  - split.
    + exists 0. lia.
    + intros k. destruct (Hk k) as [->|[[H1 H2]|[H1 H2]]]; lia.
Qed.

Lemma periodic_distance_unique : forall L a b d d',
  periodic_distance L a b d -> periodic_distance L a b d' -> d = d'.
Proof.
  intros L a b d d' [[k Hk] H] [[k' Hk'] H']. specialize (H k'). specialize (H' k). lia.
Qed.

Lemma periodic_distance_nonneg : forall L a b d, periodic_distance L a b d -> 0 <= d.
Proof. intros L a b d [[k Hk] _]. lia. Qed.

(** ** Building the tables *)

Section Table.
  Variable sel : sightline -> bool.
  Variable key : sightline -> Z.

  Fixpoint gtable (i : nat) (ls : list sightline) (m : multimap) : multimap :=
    match ls with
    | [] => m
    | l :: ls' => gtable (S i) ls' (if sel l then mm_insert (key l) i m else m)
    end.

  Lemma gtable_sorted : forall ls i m, mmsorted m -> mmsorted (gtable i ls m).
  Proof.
    induction ls as [|l ls IH]; intros i m H; simpl; auto.
    apply IH. destruct (sel l); auto. apply mm_insert_sorted; auto.
  Qed.

  Lemma gtable_in : forall ls i m e,
    In e (gtable i ls m) <->
    In e m \/ (exists n l, nth_error ls n = Some l /\ sel l = true /\ e = (key l, (i + n)%nat)).
  Proof.
    induction ls as [|l ls IH]; intros i m e; simpl.
    - split; auto. intros [H|[n [l [H _]]]]; auto. destruct n; discriminate.
    - rewrite IH. split.
      + intros [H|[n [l' [H1 [H2 H3]]]]].
        * destruct (sel l) eqn:Hsel.
          -- apply (Permutation_in _ (mm_insert_perm _ _ _)) in H. destruct H as [<-|H]; auto.
             right. exists 0%nat, l. rewrite Nat.add_0_r. auto.
          -- auto.
        * right. exists (S n), l'. simpl. rewrite <- plus_n_Sm. auto.
      + intros [H|[n [l' [H1 [H2 H3]]]]].
        * left. destruct (sel l); auto.
          apply (Permutation_in _ (Permutation_sym (mm_insert_perm _ _ _))). right; auto.
        * destruct n as [|n]; simpl in H1.
          -- inversion H1; subst l'. rewrite H2. left.
             apply (Permutation_in _ (Permutation_sym (mm_insert_perm _ _ _))).
             left. subst e. rewrite Nat.add_0_r. auto.
          -- right. exists n, l'. rewrite <- plus_n_Sm in H3. auto.
  Qed.

  Lemma gtable_nodup : forall ls i m, NoDup (map snd m) ->
    (forall e, In e m -> (snd e < i)%nat) -> NoDup (map snd (gtable i ls m)).
  Proof.
    induction ls as [|l ls IH]; intros i m Hn Hlt; simpl; auto.
    apply IH.
    - destruct (sel l); auto.
      eapply Permutation_NoDup.
      + apply Permutation_map. apply Permutation_sym. apply mm_insert_perm.
      + simpl. constructor; auto. intros Hin. apply in_map_iff in Hin.
        destruct Hin as [e [He1 He2]]. specialize (Hlt _ He2). lia.
    - intros e He. destruct (sel l).
      + apply (Permutation_in _ (mm_insert_perm _ _ _)) in He.
        destruct He as [<-|He]; simpl; [lia|]. specialize (Hlt _ He). lia.
      + specialize (Hlt _ He). lia.
  Qed.
End Table.

Definition sel_other (l : sightline) : bool := negb (l_axis l =? 1).
Definition sel_xx (l : sightline) : bool := l_axis l =? 1.

Lemma build_table_g : forall ls i m, build_table i ls m = gtable sel_other l_x i ls m.
Proof.
  induction ls as [|l ls IH]; intros i m; simpl; auto.
  rewrite IH. unfold sel_other. destruct (l_axis l =? 1); auto.
Qed.

Lemma build_table_xx_g : forall ls i m, build_table_xx i ls m = gtable sel_xx l_y i ls m.
Proof.
  induction ls as [|l ls IH]; intros i m; simpl; auto.
Qed.

(** ** The scan *)

(** The test and value of one table entry, as a partial function. *)
Definition entry_hit (box : Z) (ls : list sightline) (p : particle) (first : Z)
  (e : Z * nat) : option (Z * Z) :=
  match nth_error ls (snd e) with
  | None => None
  | Some l =>
      let second := if l_axis l =? 3 then p_y p else p_z p in
      let lproj2 := if l_axis l =? 3 then l_y l else l_z l in
      let d := calc_dr2 box (first - fst e) (second - lproj2) in
      if second_close box second lproj2 (p_h p) && (d <=? p_h p * p_h p)
      then Some (Z.of_nat (snd e), d) else None
  end.

Definition valid_entries (ls : list sightline) (es : multimap) : Prop :=
  forall e, In e es -> exists l, nth_error ls (snd e) = Some l.

Lemma visit_line_hit : forall box ls p first m e l,
  nth_error ls (snd e) = Some l ->
  visit_line box ls p first (Some m) e =
  Some (match entry_hit box ls p first e with
        | Some (k, d) => map_assign k d m | None => m end).
Proof.
  intros box ls p first m e l H. unfold visit_line, entry_hit. rewrite H. simpl.
  destruct (second_close _ _ _ _); simpl; auto.
  destruct (_ <=? _); auto.
Qed.

Lemma entry_hit_key : forall box ls p first e k d,
  entry_hit box ls p first e = Some (k, d) -> k = Z.of_nat (snd e).
Proof.
  intros box ls p first e k d. unfold entry_hit.
  destruct (nth_error ls (snd e)); [|discriminate].
  destruct (_ && _); intros H; inversion H; auto.
Qed.

Lemma scan_spec : forall box ls p first es m0,
  valid_entries ls es -> NoDup (map snd es) -> ksorted m0 ->
  (forall e k d, In e es -> entry_hit box ls p first e = Some (k, d) -> ~ In k (keys m0)) ->
  exists m1, fold_left (visit_line box ls p first) es (Some m0) = Some m1 /\ ksorted m1 /\
    (forall kd, In kd m1 <->
       In kd m0 \/ exists e, In e es /\ entry_hit box ls p first e = Some kd).
Proof.
  intros box ls p first es; induction es as [|e es IH]; intros m0 Hv Hn Hs Hd.
  - simpl. exists m0. split; auto. split; auto. intros kd. split; auto.
    intros [H|[e [[] _]]]; auto.
  - cbn [fold_left]. destruct (Hv e (or_introl eq_refl)) as [l Hl].
    rewrite (visit_line_hit _ _ _ _ _ _ _ Hl).
    simpl in Hn. inversion Hn as [|x xs Hnin Hn']; subst.
    set (m1 := match entry_hit box ls p first e with
        | Some (k, d) => map_assign k d m0 | None => m0 end).
    assert (Hm1 : ksorted m1 /\ (forall kd, In kd m1 <-> In kd m0 \/ entry_hit box ls p first e = Some kd)).
    { unfold m1. destruct (entry_hit box ls p first e) as [[k d]|] eqn:He.
      - destruct (map_assign_spec _ k d m0 Hs) as [H1 H2]. split; auto.
        intros [k' d']. rewrite H2. split.
        + intros [[-> ->]|[_ H]]; auto.
        + intros [H|H]; [|inversion H; auto].
          right. split; auto. intros ->.
          apply (Hd e k d (or_introl eq_refl) He). unfold keys. apply in_map_iff.
          exists (k, d'); auto.
      - split; auto. intros kd. split; auto. intros [H|H]; auto. discriminate. }
    destruct Hm1 as [Hm1s Hm1i].
    destruct (IH m1) as [m2 [E2 [S2 I2]]]; auto.
    { intros e' He'. apply Hv. right; auto. }
    { intros e' k d He' Hk Hin. unfold keys in Hin. apply in_map_iff in Hin.
      destruct Hin as [[k0 d0] [Hk0 Hin]]. simpl in Hk0. subst k0.
      apply Hm1i in Hin. destruct Hin as [Hin|Hin].
      - apply (Hd e' k d (or_intror He') Hk). unfold keys. apply in_map_iff. exists (k, d0); auto.
      - apply entry_hit_key in Hin. apply entry_hit_key in Hk.
        assert (snd e = snd e') by lia. apply Hnin. rewrite H. apply in_map; auto. }
    exists m2. split; auto. split; auto.
    intros kd. rewrite I2, Hm1i. split.
    + intros [[H|H]|[e' [H1 H2]]]; auto.
      * right. exists e; split; [left|]; auto.
      * right. exists e'; split; [right|]; auto.
    + intros [H|[e' [[<-|H1] H2]]]; auto. right. exists e'; auto.
Qed.

(** The key window scanned around [first]. *)
Definition in_window (box h first key : Z) : Prop :=
  let ffp := if box <? first + h then first + h - box else first + h in
  let ffm := if first - h <? 0 then first - h + box else first - h in
  if ffm <=? ffp then ffm <= key < ffp else (key < ffp \/ ffm <= key).

Lemma in_window_dec : forall box h first key,
  {in_window box h first key} + {~ in_window box h first key}.
Proof.
  intros. unfold in_window.
  destruct (box <? first + h); destruct (first - h <? 0);
  match goal with |- context [if ?c then _ else _] => destruct c end;
  match goal with
  | |- {?a <= ?b < ?c} + {_} =>
     destruct (Z_le_dec a b); destruct (Z_lt_dec b c); try (left; lia); right; lia
  | |- {?a < ?b \/ ?c <= ?d} + {_} =>
     destruct (Z_lt_dec a b); destruct (Z_le_dec c d); try (left; lia); right; lia
  end.
Qed.

Lemma get_nearby_spec : forall box ls p first m m0,
  valid_entries ls m -> NoDup (map snd m) -> mmsorted m -> ksorted m0 ->
  (forall e k d, In e m -> entry_hit box ls p first e = Some (k, d) -> ~ In k (keys m0)) ->
  exists m1, get_nearby box ls p first m (Some m0) = Some m1 /\ ksorted m1 /\
    (forall kd, In kd m1 <->
       In kd m0 \/ exists e, In e m /\ in_window box (p_h p) first (fst e) /\
                             entry_hit box ls p first e = Some kd).
Proof.
  intros box ls p first m m0 Hv Hn Hs Hk Hd.
  unfold get_nearby, in_window.
  set (ffp := if box <? first + p_h p then first + p_h p - box else first + p_h p).
  set (ffm := if first - p_h p <? 0 then first - p_h p + box else first - p_h p).
  destruct (Z.leb_spec ffm ffp) as [Hle|Hgt].
  - destruct (iter_range_mid m ffm ffp Hs Hle) as [es [Ees Ies]].
    unfold get_nearby_from_range. rewrite Ees.
    destruct (scan_spec box ls p first es m0) as [m1 [E1 [S1 I1]]]; auto.
    + intros e He. apply Hv. apply Ies in He. tauto.
    + eapply iter_range_nodup; eauto.
    + intros e k d He. apply Hd. apply Ies in He. tauto.
    + exists m1. split; auto. split; auto. intros kd. rewrite I1. split.
      * intros [H|[e [H1 H2]]]; auto. right. exists e. apply Ies in H1. tauto.
      * intros [H|[e [H1 [H2 H3]]]]; auto. right. exists e. split; auto. apply Ies. auto.
  - destruct (iter_range_lo m ffp Hs) as [es [Ees Ies]].
    destruct (iter_range_hi m ffm Hs) as [fs [Efs Ifs]].
    unfold get_nearby_from_range. rewrite Ees, Efs.
    destruct (scan_spec box ls p first es m0) as [m1 [E1 [S1 I1]]]; auto.
    { intros e He. apply Hv. apply Ies in He. tauto. }
    { eapply iter_range_nodup; eauto. }
    { intros e k d He. apply Hd. apply Ies in He. tauto. }
    rewrite E1.
    destruct (scan_spec box ls p first fs m1) as [m2 [E2 [S2 I2]]]; auto.
    { intros e He. apply Hv. apply Ifs in He. tauto. }
    { eapply iter_range_nodup; eauto. }
    { intros e k d He Hh Hin. apply Ifs in He. destruct He as [He He'].
      unfold keys in Hin. apply in_map_iff in Hin. destruct Hin as [[k0 d0] [Hk0 Hin]].
      simpl in Hk0. subst k0. apply I1 in Hin. destruct Hin as [Hin|[e0 [H1 H2]]].
      - apply (Hd e k d He Hh). unfold keys. apply in_map_iff. exists (k, d0); auto.
      - apply entry_hit_key in Hh. apply entry_hit_key in H2. apply Ies in H1.
        assert (Hsnd : snd e = snd e0) by lia.
        assert (e = e0).
        { destruct H1 as [H1 _]. clear - Hn He H1 Hsnd.
          induction m as [|a m IH]; [inversion He|].
          simpl in Hn. inversion Hn; subst.
          destruct He as [<-|He]; destruct H1 as [<-|H1]; auto.
          - exfalso. apply H2. rewrite Hsnd. apply in_map; auto.
          - exfalso. apply H2. rewrite <- Hsnd. apply in_map; auto. }
        subst e0. lia. }
    exists m2. split; auto. split; auto. intros kd. rewrite I2, I1. split.
    + intros [[H|[e [H1 H2]]]|[e [H1 H2]]]; auto.
      * right. exists e. apply Ies in H1. tauto.
      * right. exists e. apply Ifs in H1. tauto.
    + intros [H|[e [H1 [[H2|H2] H3]]]]; auto.
      * left. right. exists e. split; auto. apply Ies; auto.
      * right. exists e. split; auto. apply Ifs; auto.
Qed.

(** ** The whole search for one particle *)

Definition line_first (l : sightline) (p : particle) : Z :=
  if l_axis l =? 1 then p_y p else p_x p.
Definition line_key (l : sightline) : Z := if l_axis l =? 1 then l_y l else l_x l.
Definition line_second (l : sightline) (p : particle) : Z :=
  if l_axis l =? 3 then p_y p else p_z p.
Definition line_key2 (l : sightline) : Z := if l_axis l =? 3 then l_y l else l_z l.

(** Exactly which pairs are reported. *)
Definition reported (box : Z) (p : particle) (l : sightline) (d : Z) : Prop :=
  in_window box (p_h p) (line_first l p) (line_key l) /\
  second_close box (line_second l p) (line_key2 l) (p_h p) = true /\
  d = calc_dr2 box (line_first l p - line_key l) (line_second l p - line_key2 l) /\
  d <= p_h p * p_h p.

Lemma entry_hit_iff : forall box ls p first k n l kd,
  nth_error ls n = Some l ->
  (entry_hit box ls p first (k, n) = Some kd <->
   exists d, kd = (Z.of_nat n, d) /\
     second_close box (line_second l p) (line_key2 l) (p_h p) = true /\
     d = calc_dr2 box (first - k) (line_second l p - line_key2 l) /\
     d <= p_h p * p_h p).
Proof.
  intros box ls p first k n l kd Hl. unfold entry_hit. simpl. rewrite Hl.
  unfold line_second, line_key2.
  set (c := second_close _ _ _ _). set (d := calc_dr2 _ _ _).
  destruct c; simpl.
  - destruct (Z.leb_spec d (p_h p * p_h p)).
    + split.
      * intros E. inversion E; subst. exists d; auto.
      * intros [d' [-> [_ [-> _]]]]. auto.
    + split; [discriminate|]. intros [d' [_ [_ [-> H0]]]]. lia.
  - split; [discriminate|]. intros [d' [_ [H _]]]. discriminate.
Qed.

Theorem get_near_lines_spec : forall box ls p,
  exists m, get_near_lines box ls p = Some m /\ ksorted m /\
    (forall kd, In kd m <->
       exists n l d, kd = (Z.of_nat n, d) /\ nth_error ls n = Some l /\ reported box p l d).
Proof.
  intros box ls p. unfold get_near_lines.
  rewrite build_table_g, build_table_xx_g.
  set (t := gtable sel_other l_x 0 ls []). set (txx := gtable sel_xx l_y 0 ls []).
  assert (It : forall e, In e t <-> exists l, nth_error ls (snd e) = Some l /\ l_axis l <> 1 /\ fst e = l_x l).
  { intros e. unfold t. rewrite gtable_in. split.
    - intros [[]|[n [l [H1 [H2 ->]]]]]. exists l. simpl. split; auto. split; auto.
      unfold sel_other in H2. destruct (Z.eqb_spec (l_axis l) 1); simpl in H2; congruence.
    - intros [l [H1 [H2 H3]]]. right. exists (snd e), l. split; auto. split.
      + unfold sel_other. destruct (Z.eqb_spec (l_axis l) 1); simpl; congruence.
      + destruct e; simpl in *; subst; auto. }
  assert (Ix : forall e, In e txx <-> exists l, nth_error ls (snd e) = Some l /\ l_axis l = 1 /\ fst e = l_y l).
  { intros e. unfold txx. rewrite gtable_in. split.
    - intros [[]|[n [l [H1 [H2 ->]]]]]. exists l. simpl. split; auto. split; auto.
      unfold sel_xx in H2. apply Z.eqb_eq in H2. auto.
    - intros [l [H1 [H2 H3]]]. right. exists (snd e), l. split; auto. split.
      + unfold sel_xx. apply Z.eqb_eq. auto.
      + destruct e; simpl in *; subst; auto. }
  assert (St : mmsorted t) by (apply gtable_sorted; constructor).
  assert (Sx : mmsorted txx) by (apply gtable_sorted; constructor).
  assert (Nt : NoDup (map snd t)) by (apply gtable_nodup; [constructor|intros e []]).
  assert (Nx : NoDup (map snd txx)) by (apply gtable_nodup; [constructor|intros e []]).
  assert (H1 : exists m1,
    match t with [] => Some [] | _ => get_nearby box ls p (p_x p) t (Some []) end = Some m1 /\
    ksorted m1 /\ (forall kd, In kd m1 <->
      exists n l d, kd = (Z.of_nat n, d) /\ nth_error ls n = Some l /\ l_axis l <> 1 /\ reported box p l d)).
  { destruct (get_nearby_spec box ls p (p_x p) t []) as [m1 [E1 [S1 I1]]]; auto.
    { intros e He. apply It in He. destruct He as [l [He _]]. exists l; auto. }
    { constructor. }
    assert (I1' : forall kd, In kd m1 <->
      exists n l d, kd = (Z.of_nat n, d) /\ nth_error ls n = Some l /\ l_axis l <> 1 /\ reported box p l d).
    { intros kd. rewrite I1. split.
      - intros [[]|[[k n] [He [Hw Hh]]]]. apply It in He. destruct He as [l [Hl [Hax Hkey]]].
        simpl in *. apply (entry_hit_iff _ _ _ _ _ _ _ _ Hl) in Hh.
        destruct Hh as [d [-> [Hc [Hd Hle]]]]. exists n, l, d. repeat split; auto.
        + unfold line_first, line_key. destruct (Z.eqb_spec (l_axis l) 1); [congruence|]. subst k; auto.
        + unfold line_first, line_key. destruct (Z.eqb_spec (l_axis l) 1); [congruence|]. subst k; auto.
      - intros [n [l [d [-> [Hl [Hax [Hw [Hc [Hd Hle]]]]]]]]]. right.
        unfold line_first, line_key in *. destruct (Z.eqb_spec (l_axis l) 1); [congruence|].
        exists (l_x l, n). split; [apply It; exists l; auto|]. split; auto.
        apply (entry_hit_iff _ _ _ _ _ _ _ _ Hl). exists d; auto. }
    destruct t as [|e0 t0].
    - exists []. split; auto. split; [constructor|].
      intros kd. split; [intros []|]. intros Hx. apply I1' in Hx. apply I1 in Hx.
      destruct Hx as [[]|[e [[] _]]].
    - exists m1. auto. }
  destruct H1 as [m1 [E1 [S1 I1]]]. rewrite E1.
  destruct (get_nearby_spec box ls p (p_y p) txx m1) as [m2 [E2 [S2 I2]]]; auto.
  { intros e He. apply Ix in He. destruct He as [l [He _]]. exists l; auto. }
  { intros [k n] k' d He Hh Hin. apply Ix in He. destruct He as [l [Hl [Hax _]]]. simpl in Hl.
    apply entry_hit_key in Hh. simpl in Hh.
    unfold keys in Hin. apply in_map_iff in Hin. destruct Hin as [[k0 d0] [Hk0 Hin]].
    simpl in Hk0. apply I1 in Hin. destruct Hin as [n' [l' [d' [E [Hl' [Hax' _]]]]]].
    inversion E; subst. assert (n' = n) by lia. subst n'. congruence. }
  assert (I2' : forall kd, In kd m2 <->
     exists n l d, kd = (Z.of_nat n, d) /\ nth_error ls n = Some l /\ reported box p l d).
  { intros kd. rewrite I2, I1. split.
    - intros [[n [l [d [-> [Hl [_ Hr]]]]]]|[[k n] [He [Hw Hh]]]].
      + exists n, l, d; auto.
      + apply Ix in He. destruct He as [l [Hl [Hax Hkey]]].
        simpl in *. apply (entry_hit_iff _ _ _ _ _ _ _ _ Hl) in Hh.
        destruct Hh as [d [-> [Hc [Hd Hle]]]]. exists n, l, d.
        unfold reported, line_first, line_key. rewrite Hax. simpl. subst k. auto 8.
    - intros [n [l [d [-> [Hl Hr]]]]]. destruct (Z.eq_dec (l_axis l) 1) as [Hax|Hax].
      + right. exists (l_y l, n). unfold reported, line_first, line_key in Hr.
        rewrite Hax in Hr. simpl in Hr. destruct Hr as [Hw [Hc [Hd Hle]]].
        split; [apply Ix; exists l; auto|]. split; auto.
        apply (entry_hit_iff _ _ _ _ _ _ _ _ Hl). exists d; auto.
      + left. exists n, l, d; auto. }
  destruct txx as [|e0 t0].
  - exists m1. split; auto. split; auto. intros kd.
    rewrite <- I2'. rewrite I2. split; auto. intros [H|[e [[] _]]]; auto.
  - exists m2. auto.
Qed.

(** ** Geometry: [reported] against the distance specification *)

Lemma transverse_calc : forall L p l, 0 < L -> good_particle L p -> good_line L l ->
  transverse_distance2 L p l
    (calc_dr2 L (line_first l p - line_key l) (line_second l p - line_key2 l)).
Proof.
  intros L p l HL (Px & Py & Pz) (Hax & Lx & Ly & Lz).
  unfold transverse_distance2, calc_dr2, line_first, line_key, line_second, line_key2.
  eexists; eexists; split; [reflexivity|].
  destruct Hax as [Hax|[Hax|Hax]]; rewrite Hax; simpl.
  - left. repeat split; try apply fold_dist_ok; auto.
  - right; left. repeat split; try apply fold_dist_ok; auto.
  - right; right. repeat split; try apply fold_dist_ok; auto.
Qed.

Lemma transverse_unique : forall L p l d d',
  transverse_distance2 L p l d -> transverse_distance2 L p l d' -> d = d'.
Proof.
  intros L p l d d' (u & v & -> & H) (u' & v' & -> & H').
  assert (u = u' /\ v = v') as [-> ->]; auto.
  destruct H as [(A & U & V)|[(A & U & V)|(A & U & V)]];
  destruct H' as [(A' & U' & V')|[(A' & U' & V')|(A' & U' & V')]]; try congruence;
  split; eapply periodic_distance_unique; eauto.
Qed.

Lemma window_complete : forall L h first key, 0 < h -> 2 * h < L ->
  inside L first -> inside L key -> fold_dist L (first - key) < h ->
  in_window L h first key.
Proof.
  unfold inside, fold_dist, in_window. intros L h first key Hh HL Hf Hk.
  destruct (Z.ltb_spec L (2 * Z.abs (first - key)));
  destruct (Z.ltb_spec L (first + h));
  destruct (Z.ltb_spec (first - h) 0);
  match goal with |- context [if ?a <=? ?b then _ else _] => destruct (Z.leb_spec a b) end; lia.
Qed.

Lemma second_complete : forall L h second key, 0 < h -> 2 * h < L ->
  inside L second -> inside L key -> fold_dist L (second - key) < h ->
  second_close L second key h = true.
Proof.
  unfold inside, fold_dist, second_close. intros L h second key Hh HL Hf Hk.
  destruct (Z.ltb_spec L (2 * Z.abs (second - key)));
  destruct (Z.ltb_spec L (second + h)); simpl;
  destruct (Z.ltb_spec (second - h) 0); simpl; intros;
  repeat match goal with |- context [?a <? ?b] => destruct (Z.ltb_spec a b); simpl end; auto; lia.
Qed.

Lemma sq_lt : forall a b h, 0 <= a -> 0 < h -> a * a + b * b < h * h -> a < h.
Proof. intros. nia. Qed.

Lemma fold_dist_nonneg : forall L a b, inside L a -> inside L b -> 0 <= fold_dist L (a - b).
Proof.
  unfold inside, fold_dist. intros L a b Ha Hb.
  destruct (Z.ltb_spec L (2 * Z.abs (a - b))); lia.
Qed.

Lemma good_inside : forall L p l, good_particle L p -> good_line L l ->
  inside L (line_first l p) /\ inside L (line_key l) /\
  inside L (line_second l p) /\ inside L (line_key2 l).
Proof.
  intros L p l (Px & Py & Pz) (Hax & Lx & Ly & Lz).
  unfold line_first, line_key, line_second, line_key2.
  destruct (l_axis l =? 1); destruct (l_axis l =? 3); auto.
Qed.

Lemma reported_complete : forall L p l d, 0 < p_h p -> 2 * p_h p < L ->
  good_particle L p -> good_line L l ->
  transverse_distance2 L p l d -> d < p_h p * p_h p -> reported L p l d.
Proof.
  intros L p l d Hh HL Hp Hl Hd Hlt.
  assert (HL0 : 0 < L) by lia.
  pose proof (transverse_calc L p l HL0 Hp Hl) as Hc.
  pose proof (transverse_unique _ _ _ _ _ Hd Hc) as ->.
  destruct (good_inside L p l Hp Hl) as (I1 & I2 & I3 & I4).
  unfold calc_dr2 in Hlt. unfold reported. split; [|split; [|split; auto]].
  - apply window_complete; auto.
    eapply sq_lt; [apply fold_dist_nonneg; auto|auto|exact Hlt].
  - apply second_complete; auto.
    eapply sq_lt; [apply fold_dist_nonneg; auto|auto|]. rewrite Z.add_comm. exact Hlt.
  - unfold calc_dr2. lia.
Qed.

Lemma reported_sound : forall L p l d, 0 < L -> good_particle L p -> good_line L l ->
  reported L p l d -> transverse_distance2 L p l d /\ d <= p_h p * p_h p.
Proof.
  intros L p l d HL Hp Hl (_ & _ & -> & Hle). split; auto.
  apply transverse_calc; auto.
Qed.

(** ** Schedules *)

Lemma near_lines_nonempty : forall L ls p m, get_near_lines L ls p = Some m ->
  (m = [] <-> ~ exists l d, In l ls /\ reported L p l d).
Proof.
  intros L ls p m Hm. destruct (get_near_lines_spec L ls p) as [m' [E [_ I]]].
  rewrite E in Hm. inversion Hm; subst m'. split.
  - intros -> [l [d [Hin Hr]]]. apply In_nth_error in Hin. destruct Hin as [n Hn].
    apply (I (Z.of_nat n, d)). exists n, l, d; auto.
  - intros H. destruct m as [|kd m]; auto. exfalso. apply H.
    destruct (proj1 (I kd) (or_introl eq_refl)) as [n [l [d [_ [Hn Hr]]]]].
    exists l, d. split; auto. eapply nth_error_In; eauto.
Qed.

(** Particle number [i] has a reported line. *)
Definition hits (L : Z) (ls : list sightline) (ps : list particle) (i : nat) : Prop :=
  exists p l d, nth_error ps i = Some p /\ In l ls /\ reported L p l d.

Lemma py_near_lines_spec : forall L ls ps order s0,
  (forall i, In i order -> (i < length ps)%nat) -> zsorted s0 ->
  exists s, fold_left (near_lines_step L ls ps) order (Some s0) = Some s /\ zsorted s /\
   (forall k, In k s <-> In k s0 \/ exists i, In i order /\ k = to_int32 (Z.of_nat i) /\ hits L ls ps i).
Proof.
  intros L ls ps order; induction order as [|i order IH]; intros s0 Hr Hs.
  - simpl. exists s0. split; auto. split; auto. intros k. split; auto.
    intros [H|[i [[] _]]]; auto.
  - cbn [fold_left]. assert (Hi : (i < length ps)%nat) by (apply Hr; left; auto).
    destruct (nth_error ps i) as [p|] eqn:Hp; [|apply nth_error_None in Hp; lia].
    unfold near_lines_step at 2. rewrite Hp.
    destruct (get_near_lines_spec L ls p) as [m [Em _]]. rewrite Em.
    pose proof (near_lines_nonempty _ _ _ _ Em) as Hne.
    assert (Hr' : forall j, In j order -> (j < length ps)%nat) by (intros; apply Hr; right; auto).
    destruct m as [|kd m].
    + destruct (IH s0 Hr' Hs) as [s [E [S I]]]. exists s. split; auto. split; auto.
      intros k. rewrite I. split.
      * intros [H|[j [H1 H2]]]; auto. right. exists j. split; [right|]; tauto.
      * intros [H|[j [[<-|H1] H2]]]; auto.
        -- exfalso. apply (proj1 Hne eq_refl). destruct H2 as [_ [p' [l [d [H3 [H4 H5]]]]]].
           assert (p' = p) by congruence. subst. exists l, d; auto.
        -- right. exists j; auto.
    + assert (Hh : hits L ls ps i).
      { destruct (get_near_lines_spec L ls p) as [m' [E' [_ I']]]. rewrite Em in E'.
        inversion E'; subst m'. destruct (proj1 (I' kd) (or_introl eq_refl)) as [n [l [d [_ [Hn Hrr]]]]].
        exists p, l, d. split; auto. split; auto. eapply nth_error_In; eauto. }
      destruct (set_insert_spec (to_int32 (Z.of_nat i)) s0 Hs) as [S0 I0].
      destruct (IH (set_insert (to_int32 (Z.of_nat i)) s0) Hr' S0) as [s [E [S I]]].
      exists s. split; auto. split; auto.
      intros k. rewrite I, I0. split.
      * intros [[->|H]|[j [H1 H2]]]; auto.
        -- right. exists i. split; [left|]; auto.
        -- right. exists j. split; [right|]; auto.
      * intros [H|[j [[<-|H1] [H2 H3]]]]; auto. right. exists j; auto.
Qed.

Lemma perm_seq_in : forall n order, Permutation order (seq 0 n) ->
  forall i, In i order <-> (i < n)%nat.
Proof.
  intros n order H i. split; intros Hi.
  - apply (Permutation_in _ H) in Hi. apply in_seq in Hi. lia.
  - apply (Permutation_in _ (Permutation_sym H)). apply in_seq. lia.
Qed.

Theorem py_near_lines_schedule : forall L ls ps order,
  Permutation order (seq 0 (length ps)) ->
  py_near_lines L ls ps order = py_near_lines L ls ps (seq 0 (length ps)).
Proof.
  intros L ls ps order Hp. unfold py_near_lines.
  destruct (py_near_lines_spec L ls ps order []) as [s1 [E1 [S1 I1]]].
  { intros i. apply (perm_seq_in _ _ Hp). } { constructor. }
  destruct (py_near_lines_spec L ls ps (seq 0 (length ps)) []) as [s2 [E2 [S2 I2]]].
  { intros i Hi. apply in_seq in Hi. lia. } { constructor. }
  rewrite E1, E2. f_equal. apply zsorted_ext; auto.
  intros k. rewrite I1, I2. split; intros [[]|[i [H1 H2]]]; right; exists i; split; auto.
  - apply in_seq. apply (perm_seq_in _ _ Hp) in H1. lia.
  - apply (perm_seq_in _ _ Hp). apply in_seq in H1. lia.
Qed.

(** *** Per-line particle lists *)

Lemma update_nth_length : forall A (f : A -> A) l n, length (update_nth n f l) = length l.
Proof. intros A f l; induction l as [|a l IH]; intros [|n]; simpl; auto. Qed.

Lemma nth_error_update_nth : forall A (f : A -> A) l n k,
  nth_error (update_nth n f l) k =
  if Nat.eqb k n then option_map f (nth_error l k) else nth_error l k.
Proof.
  intros A f l; induction l as [|a l IH]; intros [|n] [|k]; simpl; auto.
  destruct (Nat.eqb k n); auto.
Qed.

Lemma insert_particle_length : forall nearby i lists,
  length (insert_particle i lists nearby) = length lists.
Proof.
  unfold insert_particle. induction nearby as [|e nearby IH]; intros i lists; simpl; auto.
  rewrite IH. apply update_nth_length.
Qed.

Lemma insert_particle_nth : forall nearby i lists n m,
  ksorted nearby -> (forall e, In e nearby -> 0 <= fst e) ->
  nth_error lists n = Some m -> ksorted m -> ~ In (to_int32 (Z.of_nat i)) (keys m) ->
  exists m', nth_error (insert_particle i lists nearby) n = Some m' /\ ksorted m' /\
    (forall kd, In kd m' <-> In kd m \/
       (fst kd = to_int32 (Z.of_nat i) /\ In (Z.of_nat n, snd kd) nearby)).
Proof.
  unfold insert_particle.
  induction nearby as [|[k d] nearby IH]; intros i lists n m Hk Hpos Hn Hs Hfresh; simpl.
  - exists m. split; auto. split; auto. intros kd. split; auto. intros [H|[_ []]]; auto.
  - apply ksorted_cons_inv in Hk. destruct Hk as [Hk Hlt].
    assert (Hk0 : 0 <= k) by (apply (Hpos (k, d)); left; auto).
    destruct (Nat.eq_dec n (Z.to_nat k)) as [Heq|Hneq].
    + (* this line is hit now, and never again *)
      destruct (map_insert_spec _ (to_int32 (Z.of_nat i)) d m Hs) as [S1 I1].
      assert (Hrest : forall lists' m', nth_error lists' n = Some m' ->
        nth_error (fold_left (fun acc e =>
           update_nth (Z.to_nat (fst e)) (map_insert (to_int32 (Z.of_nat i)) (snd e)) acc)
           nearby lists') n = Some m').
      { clear IH. assert (Hn' : forall e, In e nearby -> Z.to_nat (fst e) <> n).
        { intros e He. specialize (Hlt e He). simpl in Hlt. lia. }
        clear - Hn'. induction nearby as [|e nearby IH]; intros lists' m' H; simpl; auto.
        apply IH.
        - intros e' He'. apply Hn'. right; auto.
        - rewrite nth_error_update_nth. destruct (Nat.eqb_spec n (Z.to_nat (fst e))); auto.
          exfalso. apply (Hn' e); [left|]; auto. }
      exists (map_insert (to_int32 (Z.of_nat i)) d m). split; [|split; auto].
      * apply Hrest. rewrite nth_error_update_nth. rewrite Heq, Nat.eqb_refl, <- Heq, Hn. auto.
      * intros [k' d']. rewrite I1. simpl. split.
        -- intros [[-> [-> _]]|H]; auto. right. split; auto. left. f_equal. lia.
        -- intros [H|[-> [H|H]]]; auto.
           ++ assert (d' = d) by congruence. subst d'. left; auto.
           ++ specialize (Hlt _ H). simpl in Hlt. lia.
    + destruct (IH i (update_nth (Z.to_nat k) (map_insert (to_int32 (Z.of_nat i)) d) lists) n m)
        as [m' [E [S I]]]; auto.
      * intros e He. apply Hpos. right; auto.
      * rewrite nth_error_update_nth. destruct (Nat.eqb_spec n (Z.to_nat k)); [congruence|auto].
      * exists m'. split; auto. split; auto. intros kd. rewrite I. split.
        -- intros [H|[H1 H2]]; auto.
        -- intros [H|[H1 [H2|H2]]]; auto. inversion H2. lia.
Qed.

(** Particle [i] is reported at distance [d] from line number [n]. *)
Definition pair_hit (L : Z) (ls : list sightline) (ps : list particle) (n i : nat) (d : Z) : Prop :=
  exists p l, nth_error ps i = Some p /\ nth_error ls n = Some l /\ reported L p l d.

Lemma near_particles_spec : forall L ls ps order lists0,
  Z.of_nat (length ps) <= 2 ^ 31 ->
  (forall i, In i order -> (i < length ps)%nat) -> NoDup order ->
  length lists0 = length ls ->
  (forall n m, nth_error lists0 n = Some m -> ksorted m /\
     (forall i, In i order -> ~ In (Z.of_nat i) (keys m))) ->
  exists lists, fold_left (near_particles_step L ls ps) order (Some lists0) = Some lists /\
    length lists = length ls /\
    (forall n m0, nth_error lists0 n = Some m0 ->
       exists m, nth_error lists n = Some m /\ ksorted m /\
       (forall kd, In kd m <-> In kd m0 \/
          exists i, In i order /\ fst kd = Z.of_nat i /\ pair_hit L ls ps n i (snd kd))).
Proof.
  intros L ls ps order; induction order as [|i order IH]; intros lists0 Hsz Hr Hnd Hlen H0.
  - simpl. exists lists0. split; auto. split; auto. intros n m0 Hn. exists m0.
    split; auto. destruct (H0 n m0 Hn) as [Hs _]. split; auto.
    intros kd. split; auto. intros [H|[i [[] _]]]; auto.
  - cbn [fold_left]. assert (Hi : (i < length ps)%nat) by (apply Hr; left; auto).
    destruct (nth_error ps i) as [p|] eqn:Hp; [|apply nth_error_None in Hp; lia].
    unfold near_particles_step at 2. rewrite Hp.
    destruct (get_near_lines_spec L ls p) as [nearby [Em [Sm Im]]]. rewrite Em.
    inversion Hnd as [|x xs Hnin Hnd']; subst.
    assert (Hcast : to_int32 (Z.of_nat i) = Z.of_nat i) by (apply to_int32_id; lia).
    assert (Hpos : forall e, In e nearby -> 0 <= fst e).
    { intros e He. apply Im in He. destruct He as [n [l [d [-> _]]]]. simpl. lia. }
    assert (Hstep : forall n m0, nth_error lists0 n = Some m0 ->
       exists m', nth_error (insert_particle i lists0 nearby) n = Some m' /\ ksorted m' /\
       (forall kd, In kd m' <-> In kd m0 \/ (fst kd = Z.of_nat i /\ pair_hit L ls ps n i (snd kd)))).
    { intros n m0 Hn. destruct (H0 n m0 Hn) as [Hs Hf].
      destruct (insert_particle_nth nearby i lists0 n m0) as [m' [E [S I]]]; auto.
      { rewrite Hcast. apply Hf. left; auto. }
      exists m'. split; auto. split; auto. intros kd. rewrite I, Hcast, Im. split.
      - intros [H|[H1 [n' [l [d [E' [Hl Hrp]]]]]]]; auto. right. split; auto.
        inversion E'. assert (n' = n) by lia. subst. exists p, l. auto.
      - intros [H|[H1 [p' [l [H2 [H3 H4]]]]]]; auto. right. split; auto.
        exists n, l, (snd kd). assert (p' = p) by congruence. subst. auto. }
    destruct (IH (insert_particle i lists0 nearby)) as [lists [E [Hl I]]]; auto.
    + intros j Hj. apply Hr. right; auto.
    + rewrite insert_particle_length. auto.
    + intros n m Hn.
      assert (Hn0 : exists m0, nth_error lists0 n = Some m0).
      { destruct (nth_error lists0 n) eqn:E0; eauto. apply nth_error_None in E0.
        assert (n < length (insert_particle i lists0 nearby))%nat
          by (apply nth_error_Some; congruence).
        rewrite insert_particle_length in H. lia. }
      destruct Hn0 as [m0 Hn0]. destruct (Hstep n m0 Hn0) as [m' [E' [S' I']]].
      assert (m' = m) by congruence. subst m'. split; auto.
      intros j Hj Hin. unfold keys in Hin. apply in_map_iff in Hin.
      destruct Hin as [[k0 d0] [Hk0 Hin]]. simpl in Hk0. subst k0.
      apply I' in Hin. destruct Hin as [Hin|[Hin _]].
      * destruct (H0 n m0 Hn0) as [_ Hf]. apply (Hf j (or_intror Hj)).
        unfold keys. apply in_map_iff. exists (Z.of_nat j, d0); auto.
      * simpl in Hin. assert (j = i) by lia. subst. contradiction.
    + exists lists. split; auto. split; auto. intros n m0 Hn.
      destruct (Hstep n m0 Hn) as [m' [E' [S' I']]].
      destruct (I n m' E') as [m [E'' [S'' I'']]].
      exists m. split; auto. split; auto. intros kd. rewrite I'', I'. split.
      * intros [[H|[H1 H2]]|[j [H1 H2]]]; auto.
        -- right. exists i. split; [left|]; auto.
        -- right. exists j. split; [right|]; auto.
      * intros [H|[j [[<-|H1] H2]]]; auto. right. exists j; auto.
Qed.

Theorem get_near_particles_spec : forall L ls ps order,
  Z.of_nat (length ps) <= 2 ^ 31 ->
  Permutation order (seq 0 (length ps)) ->
  exists lists, get_near_particles L ls ps order = Some lists /\
    length lists = length ls /\
    (forall n m, nth_error lists n = Some m ->
       ksorted m /\
       (forall i d, In (i, d) m <->
          exists k, i = Z.of_nat k /\ pair_hit L ls ps n k d)).
Proof.
  intros L ls ps order Hsz Hp. unfold get_near_particles.
  destruct (near_particles_spec L ls ps order (map (fun _ => []) ls)) as [lists [E [Hl I]]]; auto.
  - intros i. apply (perm_seq_in _ _ Hp).
  - eapply Permutation_NoDup; [apply Permutation_sym; eauto|apply seq_NoDup].
  - apply map_length.
  - intros n m Hn. rewrite nth_error_map in Hn. destruct (nth_error ls n); simpl in Hn; inversion Hn.
    split; [constructor|]. intros i _ [].
  - exists lists. split; auto. split; auto. intros n m Hn.
    assert (Hls : exists l, nth_error ls n = Some l).
    { destruct (nth_error ls n) eqn:E0; eauto. apply nth_error_None in E0.
      assert (n < length lists)%nat by (apply nth_error_Some; congruence). lia. }
    destruct Hls as [l Hls].
    destruct (I n []) as [m' [E' [S' I']]].
    { rewrite nth_error_map, Hls. auto. }
    assert (m' = m) by congruence. subst m'. split; auto.
    intros i d. rewrite I'. simpl. split.
    + intros [[]|[k [_ [H1 H2]]]]. exists k; auto.
    + intros [k [H1 H2]]. right. exists k. split; auto.
      apply (perm_seq_in _ _ Hp). destruct H2 as [p [_ [H2 _]]].
      apply nth_error_Some. congruence.
Qed.

Theorem get_near_particles_schedule : forall L ls ps order,
  Z.of_nat (length ps) <= 2 ^ 31 ->
  Permutation order (seq 0 (length ps)) ->
  get_near_particles L ls ps order = get_near_particles L ls ps (seq 0 (length ps)).
Proof.
  intros L ls ps order Hsz Hp.
  destruct (get_near_particles_spec L ls ps order Hsz Hp) as [l1 [E1 [H1 I1]]].
  destruct (get_near_particles_spec L ls ps (seq 0 (length ps)) Hsz (Permutation_refl _))
    as [l2 [E2 [H2 I2]]].
  rewrite E1, E2. f_equal.
  assert (Hext : forall (a b : list (imap Z)), length a = length b ->
     (forall n x y, nth_error a n = Some x -> nth_error b n = Some y -> x = y) -> a = b).
  { clear. induction a as [|x a IH]; intros [|y b] Hlen H; simpl in *; try lia; auto.
    f_equal.
    - apply (H 0%nat); auto.
    - apply IH; [lia|]. intros n u v. apply (H (S n)). }
  apply Hext; [congruence|]. intros n x y Hx Hy.
  destruct (I1 n x Hx) as [S1 J1]. destruct (I2 n y Hy) as [S2 J2].
  apply ksorted_ext; auto. intros [i d]. rewrite J1, J2. tauto.
Qed.

(** ** The statements of the property file *)

Lemma C01_aux : forall L ls p,
  0 < p_h p -> 2 * p_h p < L -> good_particle L p -> Forall (good_line L) ls ->
  exists m, get_near_lines L ls p = Some m /\
    StronglySorted Z.lt (map fst m) /\
    (forall i d, In (i, d) m ->
       exists n l, i = Z.of_nat n /\ nth_error ls n = Some l /\
         transverse_distance2 L p l d /\ d <= p_h p * p_h p) /\
    (forall n l d, nth_error ls n = Some l -> transverse_distance2 L p l d ->
       d < p_h p * p_h p -> In (Z.of_nat n, d) m).
Proof.
  intros L ls p Hh HL Hp Hls.
  destruct (get_near_lines_spec L ls p) as [m [E [S I]]].
  exists m. split; auto. split; [|split].
  - clear - S. induction S; simpl; constructor; auto.
    rewrite Forall_map. auto.
  - intros i d Hin. apply I in Hin. destruct Hin as [n [l [d' [Eq [Hn Hr]]]]].
    inversion Eq; subst. exists n, l. split; auto. split; auto.
    apply reported_sound; auto; [lia|].
    rewrite Forall_forall in Hls. apply Hls. eapply nth_error_In; eauto.
  - intros n l d Hn Ht Hlt. apply I. exists n, l, d. split; auto. split; auto.
    apply reported_complete; auto.
    rewrite Forall_forall in Hls. apply Hls. eapply nth_error_In; eauto.
Qed.

Lemma C02_sound_aux : forall L ls p,
  0 < L -> good_particle L p -> Forall (good_line L) ls ->
  exists m, get_near_lines L ls p = Some m /\
    (forall i d, In (i, d) m ->
       exists n l, i = Z.of_nat n /\ nth_error ls n = Some l /\
         transverse_distance2 L p l d /\ d <= p_h p * p_h p).
Proof.
  intros L ls p HL Hp Hls.
  destruct (get_near_lines_spec L ls p) as [m [E [S I]]].
  exists m. split; auto.
  intros i d Hin. apply I in Hin. destruct Hin as [n [l [d' [Eq [Hn Hr]]]]].
  inversion Eq; subst. exists n, l. split; auto. split; auto.
  apply reported_sound; auto.
  rewrite Forall_forall in Hls. apply Hls. eapply nth_error_In; eauto.
Qed.

Lemma C02_refuted_aux : forall L first,
  0 < first -> 2 * first < L -> Z.even L = true ->
  exists ls p, p_x p = first /\ L <= 2 * p_h p /\ p_h p <= L /\
    good_particle L p /\ Forall (good_line L) ls /\
    (exists l, nth_error ls 0 = Some l /\ transverse_distance2 L p l 0) /\
    get_near_lines L ls p = Some [].
Proof.
  intros L first H1 H2 Hev.
  exists [mkLine 3 first first 0]. exists (mkPart first first 0 (L / 2)).
  assert (Hd : L = 2 * (L / 2) + L mod 2) by (apply Z.div_mod; lia).
  assert (Hm : L mod 2 = 0) by (rewrite Zmod_even, Hev; auto).
  rewrite Hm in Hd. set (h := L / 2) in *. clearbody h. clear Hm Hev.
  unfold good_particle, good_line, inside; cbn [p_x p_y p_z p_h l_x l_y l_z l_axis].
  split; [auto|]. split; [lia|]. split; [lia|]. split; [lia|]. split.
  { apply Forall_cons; [|apply Forall_nil]. cbn [l_x l_y l_z l_axis]. lia. }
  split.
  { eexists; split; [reflexivity|]. exists 0, 0. split; [lia|]. right; right.
    cbn [p_x p_y l_x l_y l_axis]. split; auto. split; split; try (exists 0; lia); intros; lia. }
  unfold get_near_lines. cbn -[Z.mul Z.add get_nearby].
  unfold get_nearby. cbn [p_h length].
  destruct (Z.ltb_spec L (first + h)); [lia|].
  destruct (Z.ltb_spec (first - h) 0); [|lia].
  destruct (Z.leb_spec (first - h + L) (first + h)); [|lia].
  replace (first - h + L) with (first + h) by lia.
  unfold get_nearby_from_range, iter_range.
  rewrite Nat.ltb_irrefl, Nat.sub_diag. reflexivity.
Qed.

Lemma C03_aux : forall L ls ps order order',
  Permutation order (seq 0 (length ps)) -> Permutation order' (seq 0 (length ps)) ->
  py_near_lines L ls ps order = py_near_lines L ls ps order'.
Proof.
  intros L ls ps order order' H H'.
  rewrite (py_near_lines_schedule _ _ _ _ H), (py_near_lines_schedule _ _ _ _ H'). auto.
Qed.

Lemma C03_content_aux : forall L ls ps order,
  Permutation order (seq 0 (length ps)) -> Z.of_nat (length ps) <= 2 ^ 31 ->
  Forall (fun p => 0 < p_h p /\ 2 * p_h p < L /\ good_particle L p) ps ->
  Forall (good_line L) ls ->
  exists s, py_near_lines L ls ps order = Some s /\ StronglySorted Z.lt s /\
    (forall k, In k s -> exists i p l d, k = Z.of_nat i /\ nth_error ps i = Some p /\
       In l ls /\ transverse_distance2 L p l d /\ d <= p_h p * p_h p) /\
    (forall i p, nth_error ps i = Some p -> near_some_line L ls p -> In (Z.of_nat i) s).
Proof.
  intros L ls ps order Hperm Hsz Hps Hls.
  destruct (py_near_lines_spec L ls ps order []) as [s [E [S I]]].
  { intros i. apply (perm_seq_in _ _ Hperm). } { constructor. }
  rewrite Forall_forall in Hps, Hls.
  exists s. split; auto. split; auto. split.
  - intros k Hk. apply I in Hk. destruct Hk as [[]|[i [Hi [-> [p [l [d [Hp [Hl Hr]]]]]]]]].
    assert (Hlt : (i < length ps)%nat) by (apply (perm_seq_in _ _ Hperm); auto).
    exists i, p, l, d. split; [apply to_int32_id; lia|]. split; auto. split; auto.
    destruct (Hps p (nth_error_In _ _ Hp)) as [H1 [H2 H3]].
    apply reported_sound; auto. lia.
  - intros i p Hp [l [d [Hl [Ht Hlt]]]].
    assert (Hi : (i < length ps)%nat) by (apply nth_error_Some; congruence).
    apply I. right. exists i. split; [apply (perm_seq_in _ _ Hperm); auto|].
    split; [symmetry; apply to_int32_id; lia|].
    exists p, l, d. split; auto. split; auto.
    destruct (Hps p (nth_error_In _ _ Hp)) as [H1 [H2 H3]].
    apply reported_complete; auto.
Qed.

Lemma C03_overflow_aux :
  exists L ls ps i p, nth_error ps i = Some p /\ 0 < p_h p /\ 2 * p_h p < L /\
    good_particle L p /\ Forall (good_line L) ls /\ near_some_line L ls p /\
    (forall order s, Permutation order (seq 0 (length ps)) ->
       py_near_lines L ls ps order = Some s -> ~ In (Z.of_nat i) s).
Proof.
  set (p := mkPart 1 1 1 2). set (n := Z.to_nat (2 ^ 31)).
  exists 10, [mkLine 3 1 1 0], (repeat p (S n)), n, p.
  assert (Hn : Z.of_nat n = 2 ^ 31) by (unfold n; rewrite Z2Nat.id; lia).
  split; [apply nth_error_repeat; lia|].
  unfold good_particle, good_line, inside; simpl p_h; simpl p_x; simpl p_y; simpl p_z.
  split; [lia|]. split; [lia|]. split; [lia|]. split.
  { repeat (apply Forall_cons || apply Forall_nil); simpl; repeat split; lia. }
  split.
  { exists (mkLine 3 1 1 0), 0. split; [left; auto|]. split; [|simpl; lia].
    exists 0, 0. split; [lia|]. right; right. simpl. split; auto.
    split; split; try (exists 0; lia); intros; lia. }
  intros order s Hperm E Hin.
  destruct (py_near_lines_spec 10 [mkLine 3 1 1 0] (repeat p (S n)) order []) as [s' [E' [S' I']]].
  { intros i. apply (perm_seq_in _ _ Hperm). } { constructor. }
  unfold py_near_lines in E. rewrite E' in E. assert (s' = s) by congruence. subst s'.
  apply I' in Hin. destruct Hin as [[]|[i [_ [Heq _]]]].
  rewrite Hn in Heq. unfold to_int32 in Heq.
  assert (Hb : 0 <= (Z.of_nat i + 2 ^ 31) mod 2 ^ 32 < 2 ^ 32) by (apply Z.mod_pos_bound; lia).
  lia.
Qed.

Lemma C04_aux : forall L ls ps order order',
  Z.of_nat (length ps) <= 2 ^ 31 ->
  Permutation order (seq 0 (length ps)) -> Permutation order' (seq 0 (length ps)) ->
  get_near_particles L ls ps order = get_near_particles L ls ps order'.
Proof.
  intros L ls ps order order' Hsz H H'.
  rewrite (get_near_particles_schedule _ _ _ _ Hsz H),
          (get_near_particles_schedule _ _ _ _ Hsz H'). auto.
Qed.

Lemma C04_content_aux : forall L ls ps order,
  Permutation order (seq 0 (length ps)) -> Z.of_nat (length ps) <= 2 ^ 31 ->
  Forall (fun p => 0 < p_h p /\ 2 * p_h p < L /\ good_particle L p) ps ->
  Forall (good_line L) ls ->
  exists lists, get_near_particles L ls ps order = Some lists /\ length lists = length ls /\
    forall n l, nth_error ls n = Some l ->
    exists m, nth_error lists n = Some m /\ StronglySorted Z.lt (map fst m) /\
      (forall k d, In (k, d) m -> exists i p, k = Z.of_nat i /\ nth_error ps i = Some p /\
         transverse_distance2 L p l d /\ d <= p_h p * p_h p) /\
      (forall i p d, nth_error ps i = Some p -> transverse_distance2 L p l d ->
         d < p_h p * p_h p -> In (Z.of_nat i, d) m).
Proof.
  intros L ls ps order Hperm Hsz Hps Hls.
  destruct (get_near_particles_spec L ls ps order Hsz Hperm) as [lists [E [Hl I]]].
  rewrite Forall_forall in Hps, Hls.
  exists lists. split; auto. split; auto. intros n l Hn.
  assert (Hm : exists m, nth_error lists n = Some m).
  { destruct (nth_error lists n) eqn:E0; eauto. apply nth_error_None in E0.
    assert (n < length ls)%nat by (apply nth_error_Some; congruence). lia. }
  destruct Hm as [m Hm]. exists m. split; auto. destruct (I n m Hm) as [S J]. split; [|split].
  - clear - S. induction S; simpl; constructor; auto. rewrite Forall_map. auto.
  - intros k d Hin. apply J in Hin. destruct Hin as [i [-> [p [l' [Hp [Hl' Hr]]]]]].
    assert (l' = l) by congruence. subst l'. exists i, p. split; auto. split; auto.
    destruct (Hps p (nth_error_In _ _ Hp)) as [H1 [H2 H3]].
    apply reported_sound; auto; [lia|]. apply Hls. eapply nth_error_In; eauto.
  - intros i p d Hp Ht Hlt. apply J. exists i. split; auto. exists p, l.
    split; auto. split; auto.
    destruct (Hps p (nth_error_In _ _ Hp)) as [H1 [H2 H3]].
    apply reported_complete; auto. apply Hls. eapply nth_error_In; eauto.
Qed.

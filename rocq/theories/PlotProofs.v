(** Plots of single sightlines. *)
From Coq Require Import ZArith List Reals Lra Lia Sorting.Sorted.
From Flocq Require Import Core.Raux.
From Verif Require Import IndexModel FilterModel SessionProofs PlotModel PlotSpec.
Import ListNotations.
Local Open Scope R_scope.

Lemma argmax_from_first : forall l i best v b w, argmax_from l i best v = (b, w) ->
  (b = best /\ w = v /\ forall x, In x l -> x <= v) \/
  (exists j, (j < length l)%nat /\ b = (i + j)%nat /\ nth j l 0 = w /\ v < w /\ (forall j', (j' < j)%nat -> nth j' l 0 < w) /\ forall x, In x l -> x <= w).
Proof.
  induction l as [|x l IH]; intros i best v b w H; cbn [argmax_from] in H.
  - injection H as <- <-. left. repeat split. intros x [].
  - destruct (Rlt_dec v x) as [L|L].
    + right. destruct (IH _ _ _ _ _ H) as [(-> & -> & B)|(j & J1 & -> & J2 & J3 & J4 & J5)].
      * exists 0%nat. cbn [length nth]. split; [lia|]. split; [lia|]. split; [reflexivity|]. split; [exact L|]. split; [intros j' Hj; lia|].
        intros y [-> |Hy]; [lra|apply B, Hy].
      * exists (S j). cbn [length nth]. split; [lia|]. split; [lia|]. split; [exact J2|]. split; [lra|]. split.
        -- intros [|j'] Hj; [exact J3|apply J4; lia].
        -- intros y [-> |Hy]; [lra|apply J5, Hy].
    + destruct (IH _ _ _ _ _ H) as [(-> & -> & B)|(j & J1 & -> & J2 & J3 & J4 & J5)].
      * left. repeat split. intros y [-> |Hy]; [lra|apply B, Hy].
      * right. exists (S j). cbn [length nth]. split; [lia|]. split; [lia|]. split; [exact J2|]. split; [lra|]. split.
        -- intros [|j'] Hj; [lra|apply J4; lia].
        -- intros y [-> |Hy]; [lra|apply J5, Hy].
Qed.

Lemma argmax_first : forall l p w, argmax l = Some (p, w) -> first_largest l p /\ w = nth p l 0.
Proof.
  intros [|x l] p w H; [discriminate|]. cbn [argmax] in H. injection H as H. unfold first_largest.
  destruct (argmax_from_first _ _ _ _ _ _ H) as [(-> & -> & B)|(j & J1 & -> & J2 & J3 & J4 & J5)].
  - split; [|reflexivity]. split; [cbn; lia|]. split; [|intros j Hj; lia]. intros [|j] Hj; cbn [nth length] in *; [lra|]. apply B, nth_In. lia.
  - cbn [Nat.add nth length]. split; [|symmetry; exact J2]. rewrite J2. split; [lia|]. split.
    + intros [|j'] Hj; [lra|]. apply J5, nth_In. lia.
    + intros [|j'] Hj; [exact J3|apply J4; lia].
Qed.

Lemma argmax_exists : forall l : list R, l <> [] -> exists p w, argmax l = Some (p, w).
Proof. intros [|x l] H; [congruence|]. cbn [argmax]. destruct (argmax_from l 1 0 x) as (b, w). eauto. Qed.

Lemma roll_length : forall l k, length (roll l k) = length l.
Proof. intros. unfold roll. rewrite map_length, seq_length. reflexivity. Qed.

Lemma roll_nth : forall l k i, (i < length l)%nat -> nth i (roll l k) 0 = nth (Z.to_nat ((Z.of_nat i - k) mod Z.of_nat (length l))) l 0.
Proof.
  intros l k i H. unfold roll.
  set (f := fun i => nth (Z.to_nat ((Z.of_nat i - k) mod Z.of_nat (length l))) l 0).
  rewrite (nth_indep _ 0 (f 0%nat)) by (rewrite map_length, seq_length; exact H).
  rewrite map_nth, seq_nth by exact H. reflexivity.
Qed.

(** Where pixel [j] goes. *)
Lemma roll_place : forall (l : list R) p s j, (j < length l)%nat -> (p < length l)%nat ->
  let h := Z.of_nat (half (length l)) in
  exists d, displaced (Z.of_nat (length l)) (Z.of_nat j) (Z.of_nat p) s d /\ (- h <= d < Z.of_nat (length l) - h)%Z /\
    nth (Z.to_nat (d + h)) (roll l (h - Z.of_nat p + s)%Z) 0 = nth j l 0.
Proof.
  intros l p s j Hj Hp h. set (n := Z.of_nat (length l)). assert (Hn : (0 < n)%Z) by lia.
  pose proof (Z.mod_pos_bound (Z.of_nat j - Z.of_nat p + s + h) n Hn) as B.
  pose proof (Z.div_mod (Z.of_nat j - Z.of_nat p + s + h) n ltac:(lia)) as D.
  set (e := ((Z.of_nat j - Z.of_nat p + s + h) mod n)%Z) in *. set (q := ((Z.of_nat j - Z.of_nat p + s + h) / n)%Z) in *.
  exists (e - h)%Z. split; [exists (- q)%Z; lia|]. split; [lia|].
  replace (e - h + h)%Z with e by lia. rewrite roll_nth by lia. f_equal. rewrite Z2Nat.id by lia. fold n.
  replace (e - (h - Z.of_nat p + s))%Z with (Z.of_nat j + (- q) * n)%Z by lia. rewrite Z.mod_add, Z.mod_small by lia. lia.
Qed.

Lemma nth_combine_map : forall (f : nat -> R) (g : R -> R) (l : list R) n i, length l = n -> (i < n)%nat ->
  nth i (combine (map f (seq 0 n)) (map g l)) (0, 0) = (f i, g (nth i l 0)).
Proof.
  intros f g l n i <- H. rewrite combine_nth by (rewrite !map_length, seq_length; reflexivity).
  rewrite (nth_indep _ 0 (f 0%nat)) by (rewrite map_length, seq_length; exact H). rewrite map_nth, seq_nth by exact H.
  rewrite (nth_indep (map g l) 0 (g 0)) by (rewrite map_length; exact H). rewrite map_nth. reflexivity.
Qed.

(** ** plot_spectrum *)
Lemma C108_spectrum_aux : forall dvbin tau flux offset, tau <> [] ->
  exists peak points, plot_spectrum dvbin tau flux offset = Some (peak, points) /\ first_largest tau peak /\ length points = length tau /\
    forall j, (j < length tau)%nat -> exists d, displaced (Z.of_nat (length tau)) (Z.of_nat j) (Z.of_nat peak) (Ztrunc (offset * dvbin)) d /\
      (- Z.of_nat (length tau / 2) <= d < Z.of_nat (length tau) - Z.of_nat (length tau / 2))%Z /\
      nth (Z.to_nat (d + Z.of_nat (length tau / 2))) points (0, 0) =
        (IZR d * dvbin, if flux then exp (- nth j tau 0) else nth j tau 0).
Proof.
  intros dvbin tau flux offset N. destruct (argmax_exists tau N) as (p & w & A). unfold plot_spectrum. rewrite A.
  destruct (argmax_first _ _ _ A) as [F _]. eexists. eexists. split; [reflexivity|]. split; [exact F|].
  set (rl := roll tau (Z.of_nat (half (length tau)) - Z.of_nat p + Ztrunc (offset * dvbin))%Z).
  assert (E : (if flux then map (fun t => exp (- t)) rl else rl) = map (fun t => if flux then exp (- t) else t) rl).
  { destruct flux; [reflexivity|]. symmetry. apply map_id. }
  rewrite E. assert (L : length rl = length tau) by apply roll_length. split.
  - rewrite combine_length, !map_length, seq_length, L. apply Nat.min_id.
  - intros j Hj. destruct (roll_place tau p (Ztrunc (offset * dvbin)) j Hj (proj1 F)) as (d & D1 & D2 & D3). fold rl in D3.
    exists d. split; [exact D1|]. unfold half in *. split; [exact D2|]. rewrite (nth_combine_map _ _ _ _ _ L) by lia.
    rewrite D3. f_equal. f_equal. rewrite !INR_IZR_INZ, <- minus_IZR. f_equal. rewrite Z2Nat.id by lia. lia.
Qed.

(** With no offset the largest optical depth is drawn at velocity zero. *)
Lemma C108_centre_aux : forall dvbin tau flux, tau <> [] ->
  exists peak points, plot_spectrum dvbin tau flux 0 = Some (peak, points) /\ first_largest tau peak /\
    nth (length tau / 2) points (0, 0) = (0, if flux then exp (- nth peak tau 0) else nth peak tau 0).
Proof.
  intros dvbin tau flux N. destruct (C108_spectrum_aux dvbin tau flux 0 N) as (p & pts & E & F & L & P).
  exists p, pts. split; [exact E|]. split; [exact F|]. destruct (P p (proj1 F)) as (d & (m & D1) & D2 & D3).
  rewrite Rmult_0_l in D1. change 0 with (IZR 0) in D1. rewrite Ztrunc_IZR in D1.
  assert (Hn : (0 < length tau)%nat) by (destruct tau; [congruence|cbn; lia]).
  assert (H2 : (length tau / 2 < length tau)%nat) by (apply Nat.div_lt; lia).
  assert (m = 0)%Z by nia. subst m. assert (Hd : d = 0%Z) by lia. rewrite Hd in D3.
  rewrite Z.add_0_l, Nat2Z.id in D3. rewrite D3. f_equal. apply Rmult_0_l.
Qed.

(** An offset below 1/dvbin has no effect. *)
Lemma C108_offset_aux : forall dvbin tau flux offset, Rabs (offset * dvbin) < 1 ->
  plot_spectrum dvbin tau flux offset = plot_spectrum dvbin tau flux 0.
Proof.
  intros dvbin tau flux offset H. unfold plot_spectrum. rewrite Rmult_0_l.
  assert (E : Ztrunc (offset * dvbin) = 0%Z).
  { unfold Ztrunc. destruct (Rlt_bool_spec (offset * dvbin) 0) as [B|B].
    - apply Zceil_imp. rewrite Rabs_left in H by exact B. cbn. lra.
    - apply Zfloor_imp. rewrite Rabs_pos_eq in H by exact B. cbn. lra. }
  rewrite E. change 0 with (IZR 0). rewrite Ztrunc_IZR. reflexivity.
Qed.

(** ** plot_density *)
Lemma sorted_seq : forall n s, StronglySorted lt (seq s n).
Proof.
  induction n as [|n IH]; intros s; cbn [seq]; constructor; [apply IH|]. apply Forall_forall. intros x Hx. apply in_seq in Hx. lia.
Qed.
Lemma sorted_filter : forall f l, StronglySorted lt l -> StronglySorted lt (filter f l).
Proof.
  intros f l H. induction H as [|x l H IH F]; [constructor|]. cbn [filter]. destruct (f x); [|exact IH]. constructor; [exact IH|].
  apply Forall_forall. intros y Hy. apply filter_In in Hy. rewrite Forall_forall in F. apply F, Hy.
Qed.
Lemma sorted_last : forall l d, l <> [] -> StronglySorted lt l -> forall i, In i l -> (i <= last l d)%nat.
Proof.
  intros l d N H. induction H as [|x l H IH F]; [congruence|]. intros i [<- |Hi].
  - destruct l as [|y l]; [cbn; lia|]. transitivity y; [inversion F; lia|]. apply (IH ltac:(discriminate)). left. reflexivity.
  - destruct l as [|y l]; [destruct Hi|]. apply (IH ltac:(discriminate) i Hi).
Qed.
Lemma last_in : forall (l : list nat) d, l <> [] -> In (last l d) l.
Proof. intros l d N. destruct (exists_last N) as (l' & x & ->). rewrite last_last. apply in_or_app. right. left. reflexivity. Qed.

Lemma above_in : forall t l i, In i (above t l) <-> (i < length l)%nat /\ t < nth i l 0.
Proof.
  intros t l i. unfold above. rewrite filter_In, in_seq. split.
  - intros [H1 H2]. destruct (Rlt_dec t (nth i l 0)); [split; [lia|assumption]|discriminate].
  - intros [H1 H2]. split; [lia|]. destruct (Rlt_dec t (nth i l 0)); [reflexivity|contradiction].
Qed.
Lemma above_sorted : forall t l, StronglySorted lt (above t l).
Proof. intros. apply sorted_filter, sorted_seq. Qed.

Lemma C108_density_aux : forall dvbin velfac den thresh, den <> [] -> 0 <= dvbin / velfac ->
  let n := length den in let phys := dvbin / velfac in
  let x := fun d : Z => (IZR d + (INR (n / 2) - INR n / 2)) * phys in
  exists peak points dxlim, plot_density dvbin velfac den thresh = Some (points, dxlim) /\ first_largest den peak /\ length points = n /\
    (forall j, (j < n)%nat -> exists d, displaced (Z.of_nat n) (Z.of_nat j) (Z.of_nat peak) 0 d /\
       (- Z.of_nat (n / 2) <= d < Z.of_nat n - Z.of_nat (n / 2))%Z /\
       nth (Z.to_nat (d + Z.of_nat (n / 2))) points (0, 0) = (x d, nth j den 0 + / 10 ^ 30) /\
       (thresh < nth j den 0 -> Rabs (x d) + 50 <= dxlim)) /\
    ((exists j, (j < n)%nat /\ thresh < nth j den 0) -> exists j d, (j < n)%nat /\ thresh < nth j den 0 /\
       displaced (Z.of_nat n) (Z.of_nat j) (Z.of_nat peak) 0 d /\ (- Z.of_nat (n / 2) <= d < Z.of_nat n - Z.of_nat (n / 2))%Z /\ dxlim = Rabs (x d) + 50).
Proof.
  intros dvbin velfac den thresh N Hp n phys x. destruct (argmax_exists den N) as (p & w & A). unfold plot_density. rewrite A.
  destruct (argmax_first _ _ _ A) as [F _]. fold n phys. set (rl := roll den (Z.of_nat (half n) - Z.of_nat p)%Z).
  assert (L : length rl = n) by apply roll_length.
  assert (X : forall i, INR i * phys - INR n / 2 * phys = x (Z.of_nat i - Z.of_nat (n / 2))%Z).
  { intros i. unfold x. rewrite minus_IZR, <- !INR_IZR_INZ. ring. }
  eexists. eexists. eexists. split; [reflexivity|]. split; [exact F|]. split; [rewrite combine_length, !map_length, seq_length, L; apply Nat.min_id|].
  set (ind := above thresh rl).
  set (M := match ind with [] => INR n * phys | i :: _ => Rmax (Rabs (INR i * phys - INR n / 2 * phys - 50)) (Rabs (INR (last ind i) * phys - INR n / 2 * phys + 50)) end).
  assert (Place : forall j, (j < n)%nat -> exists d, displaced (Z.of_nat n) (Z.of_nat j) (Z.of_nat p) 0 d /\
       (- Z.of_nat (n / 2) <= d < Z.of_nat n - Z.of_nat (n / 2))%Z /\ nth (Z.to_nat (d + Z.of_nat (n / 2))) rl 0 = nth j den 0).
  { intros j Hj. destruct (roll_place den p 0 j Hj (proj1 F)) as (d & D1 & D2 & D3). exists d. rewrite Z.add_0_r in D3. auto. }
  assert (XM : forall i i', (i <= i')%nat -> x (Z.of_nat i - Z.of_nat (n / 2))%Z <= x (Z.of_nat i' - Z.of_nat (n / 2))%Z).
  { intros i i' H. unfold x. apply Rmult_le_compat_r; [exact Hp|]. apply Rplus_le_compat_r, IZR_le. lia. }
  assert (Bound : forall i, In i ind -> Rabs (x (Z.of_nat i - Z.of_nat (n / 2))%Z) + 50 <= M).
  { intros i Hi. unfold M. pose proof (above_sorted thresh rl) as S. fold ind in S. destruct ind as [|i0 rest] eqn:I; [destruct Hi|]. rewrite !X.
    assert (B1 : (i0 <= i)%nat). { destruct Hi as [-> |Hi]; [lia|]. inversion S as [|? ? _ Fo]; subst. rewrite Forall_forall in Fo. specialize (Fo _ Hi). lia. }
    assert (B2 : (i <= last (i0 :: rest) i0)%nat) by (apply sorted_last; [discriminate|exact S|exact Hi]).
    apply XM in B1. apply XM in B2. set (x0 := x (Z.of_nat i0 - _)%Z) in *. set (x1 := x (Z.of_nat (last _ _) - _)%Z) in *. set (xi := x (Z.of_nat i - _)%Z) in *.
    clearbody x0 x1 xi. unfold Rmax. destruct (Rle_dec _ _); revert r || revert n0; unfold Rabs; repeat destruct (Rcase_abs _); intros; lra. }
  assert (Attained : forall i0 rest, ind = i0 :: rest -> exists i, In i ind /\ M = Rabs (x (Z.of_nat i - Z.of_nat (n / 2))%Z) + 50).
  { intros i0 rest I. unfold M. pose proof (above_sorted thresh rl) as S. fold ind in S. rewrite I in *. rewrite !X.
    pose proof (last_in (i0 :: rest) i0 ltac:(discriminate)) as Li.
    assert (B : (i0 <= last (i0 :: rest) i0)%nat) by (apply sorted_last; [discriminate|exact S|left; reflexivity]). apply XM in B.
    set (li := last (i0 :: rest) i0) in *. set (x0 := x (Z.of_nat i0 - _)%Z) in *. set (x1 := x (Z.of_nat li - _)%Z) in *.
    destruct (Rle_dec (- x0) x1) as [C|C].
    - exists li. split; [exact Li|]. fold x1. clearbody x0 x1. unfold Rmax. destruct (Rle_dec _ _); revert r || revert n0; unfold Rabs; repeat destruct (Rcase_abs _); intros; lra.
    - exists i0. split; [left; reflexivity|]. fold x0. clearbody x0 x1. unfold Rmax. destruct (Rle_dec _ _); revert r || revert n0; unfold Rabs; repeat destruct (Rcase_abs _); intros; lra. }
  split.
  - intros j Hj. destruct (Place j Hj) as (d & D1 & D2 & D3). exists d. split; [exact D1|]. split; [exact D2|]. split.
    + rewrite (nth_combine_map _ _ _ _ _ L) by lia. rewrite D3, X, Z2Nat.id by lia. f_equal. f_equal. lia.
    + intros T. assert (Hi : In (Z.to_nat (d + Z.of_nat (n / 2))) ind). { apply above_in. rewrite L, D3. split; [lia|exact T]. }
      specialize (Bound _ Hi). rewrite Z2Nat.id in Bound by lia. replace (d + Z.of_nat (n / 2) - Z.of_nat (n / 2))%Z with d in Bound by lia. exact Bound.
  - intros (j & Hj & T). destruct (Place j Hj) as (d & D1 & D2 & D3).
    assert (Hi : In (Z.to_nat (d + Z.of_nat (n / 2))) ind). { apply above_in. rewrite L, D3. split; [lia|exact T]. }
    destruct ind as [|i0 rest] eqn:I; [destruct Hi|]. destruct (Attained i0 rest eq_refl) as (i & Hi' & E). rewrite <- I in Hi'. apply above_in in Hi'. rewrite L in Hi'. destruct Hi' as [Hi1 Hi2].
    unfold rl in Hi2. rewrite roll_nth in Hi2 by exact Hi1. fold n in Hi2.
    pose proof (Z.mod_pos_bound (Z.of_nat i - (Z.of_nat (half n) - Z.of_nat p)) (Z.of_nat n) ltac:(lia)) as Mb.
    pose proof (Z.div_mod (Z.of_nat i - (Z.of_nat (half n) - Z.of_nat p)) (Z.of_nat n) ltac:(lia)) as Md.
    exists (Z.to_nat ((Z.of_nat i - (Z.of_nat (half n) - Z.of_nat p)) mod Z.of_nat n)), (Z.of_nat i - Z.of_nat (n / 2))%Z.
    split; [lia|]. split; [exact Hi2|]. split; [|split; [lia|exact E]].
    exists ((Z.of_nat i - (Z.of_nat (half n) - Z.of_nat p)) / Z.of_nat n)%Z. rewrite Z2Nat.id by lia. unfold half in *. lia.
Qed.

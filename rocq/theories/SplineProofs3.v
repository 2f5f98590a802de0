(** The spline fit of one sightline. *)
From Coq Require Import ZArith List Reals Bool Lra Lia Permutation Sorted Psatz.
From Verif Require Import SplineModel SplineSpec SplineProofs SplineProofs2.
Import ListNotations.
Local Open Scope R_scope.

(** ** Rounding *)
Lemma round_nearest : forall x, nearest x (np_round x).
Proof.
  intros x. unfold nearest, np_round. destruct (base_Int_part x) as [A B]. set (k := Int_part x) in *.
  destruct (Rlt_dec (x - IZR k) (1 / 2)); [rewrite Rabs_pos_eq; lra|].
  destruct (Rlt_dec (1 / 2) (x - IZR k)); [rewrite plus_IZR; rewrite Rabs_left1; lra|].
  destruct (Z.even k); [rewrite Rabs_pos_eq; lra|]. rewrite plus_IZR. rewrite Rabs_left1; lra.
Qed.

Lemma nearest_bounds : forall x k, nearest x k -> x - 1 / 2 <= IZR k <= x + 1 / 2.
Proof. intros x k H. unfold nearest, Rabs in H. destruct (Rcase_abs (x - IZR k)); lra. Qed.

Lemma Int_part_IZR : forall k, Int_part (IZR k) = k.
Proof.
  intros k. destruct (base_Int_part (IZR k)) as [A B]. apply le_IZR in A.
  assert (k < Int_part (IZR k) + 1)%Z; [|lia]. apply lt_IZR. rewrite plus_IZR. lra.
Qed.

Lemma round_IZR : forall k, np_round (IZR k) = k.
Proof. intros k. unfold np_round. rewrite Int_part_IZR. destruct (Rlt_dec (IZR k - IZR k) (1 / 2)); [reflexivity|lra]. Qed.

(** ** The first breakpoints *)
Definition multiples (k lo : Z) (m : nat) : list Z := map (fun i => lo + k * Z.of_nat i)%Z (seq 0 m).

Lemma multiples_S : forall k lo m, multiples k lo (S m) = lo :: multiples k (lo + k) m.
Proof.
  intros. unfold multiples. cbn [seq map]. f_equal; [lia|]. rewrite <- seq_shift, map_map. apply map_ext. intros i. lia.
Qed.

Lemma pairs_multiples : forall k n m lo a b, (0 < k)%Z -> In (a, b) (pairs (multiples k lo (S m) ++ [n])) ->
  (b = a + k /\ b <= lo + k * Z.of_nat m /\ (1 <= m)%nat)%Z \/ (a = lo + k * Z.of_nat m /\ b = n)%Z.
Proof.
  intros k n. induction m as [|m IH]; intros lo a b K H.
  - rewrite multiples_S in H. change (multiples k (lo + k) 0) with (@nil Z) in H. cbn [app pairs] in H.
    destruct H as [H|[]]. injection H as <- <-. right. lia.
  - rewrite multiples_S in H. cbn [app] in H. rewrite multiples_S in H. cbn [app] in H.
    change (pairs (lo :: (lo + k)%Z :: multiples k (lo + k + k) m ++ [n])) with
      ((lo, (lo + k)%Z) :: pairs (((lo + k)%Z :: multiples k (lo + k + k) m) ++ [n])) in H.
    rewrite <- multiples_S in H. destruct H as [H|H].
    + injection H as <- <-. left. split; [reflexivity|]. split; [nia|lia].
    + destruct (IH _ _ _ K H) as [(H1 & H2 & H3)|(H1 & H2)]; [left|right]; repeat split; lia.
Qed.

Lemma arange_multiples : forall k n, arange k n = multiples k k (Z.to_nat ((n - 1) / k)).
Proof. intros. unfold arange, multiples. apply map_ext. intros i. lia. Qed.

Lemma multiples_last : forall k lo m, multiples k lo (S m) = multiples k lo m ++ [(lo + k * Z.of_nat m)%Z].
Proof. intros. unfold multiples. rewrite seq_S, map_app. reflexivity. Qed.

Lemma initial_spec : forall step seg_min n k l, (2 <= n)%Z -> 0 < step ->
  initial step seg_min n k = Done l ->
  (0 < k < n)%Z /\ (exists m, l = multiples k k m /\ (k * Z.of_nat m <= n - 1)%Z) /\
  forall a b, In (a, b) (pairs (all_inds n l)) ->
    if Z.ltb b n then b = (a + k)%Z else Rmin seg_min (IZR k * step) <= IZR (n - 1 - a) * step.
Proof.
  intros step seg_min n k l Hn Hs H. unfold initial in H. destruct (Z.eqb_spec k 0); [discriminate|].
  destruct (Z.ltb_spec k 0); [discriminate|]. assert (Hk : (0 < k)%Z) by lia.
  rewrite arange_multiples in H. assert (Dv := Z.mul_div_le (n - 1) k Hk). assert (Dv' := Z.mul_succ_div_gt (n - 1) k Hk).
  assert (Q : (0 <= (n - 1) / k)%Z) by (apply Z.div_pos; lia).
  set (m := Z.to_nat ((n - 1) / k)) in *. assert (Em : ((n - 1) / k)%Z = Z.of_nat m) by (unfold m; lia).
  rewrite Em in *. clearbody m.
  destruct m as [|m]; [discriminate|].
  assert (N : multiples k k (S m) <> []) by (rewrite multiples_S; discriminate).
  assert (La : last (multiples k k (S m)) 0%Z = (k * Z.of_nat (S m))%Z) by (rewrite multiples_last, last_last; lia).
  assert (Rl : removelast (multiples k k (S m)) = multiples k k m) by (rewrite multiples_last; apply removelast_last).
  destruct (multiples k k (S m)) as [|x l0] eqn:E; [contradiction|].
  rewrite La, Rl, <- E in H. rewrite vel_diff in H.
  assert (Hb : (0 < k < n)%Z) by nia.
  assert (Gen : forall m', (k * Z.of_nat m' <= n - 1)%Z -> Rmin seg_min (IZR k * step) <= IZR (n - 1 - k * Z.of_nat m') * step ->
    forall a b, In (a, b) (pairs (all_inds n (multiples k k m'))) ->
    if Z.ltb b n then b = (a + k)%Z else Rmin seg_min (IZR k * step) <= IZR (n - 1 - a) * step).
  { intros m' Hm Hl a b I. unfold all_inds in I.
    change (0%Z :: multiples k k m' ++ [n]) with ((0%Z :: multiples k (0 + k) m') ++ [n]) in I. rewrite <- multiples_S in I.
    destruct (pairs_multiples k n m' 0 a b Hk I) as [(H1 & H2 & H3)|(H1 & H2)].
    - destruct (Z.ltb_spec b n); [exact H1|lia].
    - subst b. rewrite Z.ltb_irrefl. rewrite H1. replace (n - 1 - (0 + k * Z.of_nat m'))%Z with (n - 1 - k * Z.of_nat m')%Z by lia. exact Hl. }
  destruct (Rlt_dec (IZR (n - 1 - k * Z.of_nat (S m)) * step) seg_min) as [Lt|Ge]; injection H as <-.
  - split; [exact Hb|]. split; [exists m; split; [reflexivity|nia]|]. apply Gen; [nia|].
    eapply Rle_trans; [apply Rmin_r|]. apply Rmult_le_compat_r; [lra|]. apply IZR_le. nia.
  - split; [exact Hb|]. split; [exists (S m); split; [reflexivity|lia]|]. apply Gen; [lia|].
    eapply Rle_trans; [apply Rmin_l|]. lra.
Qed.

Lemma initial_sized : forall step seg_min n k l, (2 <= n)%Z -> 0 < step -> initial step seg_min n k = Done l ->
  sized step n (Rmin seg_min (IZR k * step)) l.
Proof.
  intros step seg_min n k l Hn Hs H a b I. destruct (initial_spec _ _ _ _ _ Hn Hs H) as (_ & _ & G). specialize (G a b I).
  destruct (Z.ltb b n).
  - subst b. replace (a + k - a)%Z with k by lia. apply Rmin_r.
  - lra.
Qed.

(** ** The whole call *)
Lemma step_pos : forall vmax n, 0 < vmax -> (2 <= n)%Z -> 0 < step_of vmax n.
Proof. intros vmax n Hv Hn. unfold step_of. apply Rdiv_lt_0_compat; [assumption|]. apply IZR_lt. lia. Qed.

Lemma C69_ends_aux : forall (spline : Type) (lsq : list Z -> option spline) at_pixel vmax chi_min seg_min ini n flux, 0 < vmax ->
  exists r, r <> OutOfFuel /\
    forall fuel, (Z.to_nat n < fuel)%nat -> spline_fit lsq at_pixel fuel vmax chi_min seg_min ini n flux = r.
Proof.
  intros spline lsq at_pixel vmax chi_min seg_min ini n flux Hv. unfold spline_fit.
  destruct (Z.ltb_spec n 2) as [|Hn]; [exists OnePixel; split; [discriminate|reflexivity]|].
  cbv zeta. destruct (Rle_dec seg_min (step_of vmax n)) as [|Hs]; [exists Resolution; split; [discriminate|reflexivity]|].
  apply Rnot_le_lt in Hs. assert (Hp := step_pos vmax n Hv Hn).
  destruct (initial (step_of vmax n) seg_min n (np_round (ini / step_of vmax n))) as [l| | | | | | |] eqn:E;
    try (eexists; split; [|reflexivity]; discriminate).
  - destruct (refine_ends spline lsq at_pixel (step_of vmax n) seg_min chi_min n flux Hn Hp Hs (S (Z.to_nat n)) l) as [A B]; [lia|lia|].
    unfold rf in *. eexists. split; [|intros fuel Hf; rewrite (B fuel) by lia; reflexivity].
    destruct (refine lsq at_pixel (S (Z.to_nat n)) (step_of vmax n) seg_min chi_min n flux l) as [[br s]| | | | | | |]; try discriminate.
    contradiction.
  - exfalso. unfold initial in E. destruct (Z.eqb _ _); [discriminate|]. destruct (if Z.ltb _ _ then _ else _); [discriminate|].
    destruct (Rlt_dec _ _); discriminate.
Qed.

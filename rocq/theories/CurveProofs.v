(** Proofs about the gradient and the curvature of one section. *)
From Coq Require Import List Reals Bool ZArith Lra Lia.
From Verif Require Import RescaleModel SightlineModel CurveModel CurveSpec.
Import ListNotations.
Local Open Scope R_scope.

Definition ascending (xs : list R) : Prop := forall k, (k + 1 < length xs)%nat -> nth k xs 0 < nth (k + 1) xs 0.

Definition nc (x0 x1 x2 f0 f1 f2 : R) : R := ((f2 - f1) / (x2 - x1) - (f1 - f0) / (x1 - x0)) / (x2 - x0).
Definition nb (x0 x1 x2 f0 f1 f2 : R) : R := (f1 - f0) / (x1 - x0) - nc x0 x1 x2 f0 f1 f2 * (x0 + x1).
Definition na (x0 x1 x2 f0 f1 f2 : R) : R := f0 - nb x0 x1 x2 f0 f1 f2 * x0 - nc x0 x1 x2 f0 f1 f2 * x0 ^ 2.

Lemma newton : forall x0 x1 x2 f0 f1 f2, x0 < x1 -> x1 < x2 ->
  let P := parabola (na x0 x1 x2 f0 f1 f2) (nb x0 x1 x2 f0 f1 f2) (nc x0 x1 x2 f0 f1 f2) in P x0 = f0 /\ P x1 = f1 /\ P x2 = f2.
Proof.
  intros x0 x1 x2 f0 f1 f2 H1 H2 P. unfold P, parabola, na, nb, nc. repeat split; field; lra.
Qed.

Lemma three : forall (Q : nat -> Prop) j, Q j -> Q (j + 1)%nat -> Q (j + 2)%nat -> forall k, (j <= k <= j + 2)%nat -> Q k.
Proof.
  intros Q j A B C k H. assert (k = j \/ k = j + 1 \/ k = j + 2)%nat as [ -> | [ -> | -> ] ] by lia; assumption.
Qed.

Lemma gradient_nth : forall f x i, (i < length f)%nat -> nth i (gradient f x) 0 = gradient_at f x i.
Proof.
  intros f x i H. unfold gradient. rewrite nth_indep with (d' := gradient_at f x 0) by (rewrite map_length, seq_length; exact H).
  rewrite map_nth, seq_nth by exact H. reflexivity.
Qed.

Lemma gradient_length : forall f x, length (gradient f x) = length f.
Proof. intros. unfold gradient. rewrite map_length, seq_length. reflexivity. Qed.

Lemma gradient_slopes : forall f x, length x = length f -> (2 < length f)%nat -> ascending x -> slopes x f (gradient f x).
Proof.
  intros f x L H A. split; [apply gradient_length|]. intros i Hi. rewrite (gradient_nth f x i Hi).
  assert (G : exists j, (j + 2 < length f)%nat /\ (i = O -> j = O) /\ ((0 < i)%nat -> i + 1 = length f -> j + 3 = length f)%nat /\
    ((0 < i)%nat -> (i + 1 < length f)%nat -> i = (j + 1)%nat) /\
    let x0 := nth j x 0 in let x1 := nth (j + 1) x 0 in let x2 := nth (j + 2) x 0 in
    let f0 := nth j f 0 in let f1 := nth (j + 1) f 0 in let f2 := nth (j + 2) f 0 in
    gradient_at f x i = nb x0 x1 x2 f0 f1 f2 + 2 * nc x0 x1 x2 f0 f1 f2 * nth i x 0).
  { unfold gradient_at. destruct (Nat.eqb_spec i 0) as [->|N0].
    - exists O. split; [lia|]. split; [lia|]. split; [lia|]. split; [lia|]. cbv zeta. cbn [plus].
      assert (B0 := A 0%nat ltac:(lia)). assert (B1 := A 1%nat ltac:(lia)). cbn [plus] in B0, B1.
      unfold nb, nc. field. repeat split; lra.
    - destruct (Nat.eqb_spec i (length f - 1)) as [->|N1].
      + exists (length f - 3)%nat. split; [lia|]. split; [lia|]. split; [lia|]. split; [lia|]. cbv zeta.
        replace (length f - 3 + 1)%nat with (length f - 2)%nat by lia. replace (length f - 3 + 2)%nat with (length f - 1)%nat by lia.
        assert (B0 := A (length f - 3)%nat ltac:(lia)). assert (B1 := A (length f - 2)%nat ltac:(lia)).
        replace (length f - 3 + 1)%nat with (length f - 2)%nat in B0 by lia. replace (length f - 2 + 1)%nat with (length f - 1)%nat in B1 by lia.
        unfold nb, nc. field. repeat split; lra.
      + exists (i - 1)%nat. split; [lia|]. split; [lia|]. split; [lia|]. split; [lia|]. cbv zeta.
        replace (i - 1 + 1)%nat with i by lia. replace (i - 1 + 2)%nat with (i + 1)%nat by lia.
        assert (B0 := A (i - 1)%nat ltac:(lia)). assert (B1 := A i ltac:(lia)). replace (i - 1 + 1)%nat with i in B0 by lia.
        unfold nb, nc. field. repeat split; lra. }
  destruct G as (j & J1 & J2 & J3 & J4 & G). cbv zeta in G.
  assert (B0 := A j ltac:(lia)). assert (B1 := A (j + 1)%nat ltac:(lia)). replace (j + 1 + 1)%nat with (j + 2)%nat in B1 by lia.
  destruct (newton (nth j x 0) (nth (j + 1) x 0) (nth (j + 2) x 0) (nth j f 0) (nth (j + 1) f 0) (nth (j + 2) f 0) B0 B1) as (P0 & P1 & P2).
  do 4 eexists. split; [exact J1|]. split; [exact J2|]. split; [exact J3|]. split; [exact J4|]. split; [|exact G].
  cbv beta zeta in P0, P1, P2. intros k Hk. assert (k = j \/ k = j + 1 \/ k = j + 2)%nat as [ -> | [ -> | -> ] ] by lia; symmetry; eassumption.
Qed.

(** ** The slopes are determined *)
Lemma parabola_unique : forall x0 x1 x2 a b c a' b' c', x0 < x1 -> x1 < x2 ->
  parabola a b c x0 = parabola a' b' c' x0 -> parabola a b c x1 = parabola a' b' c' x1 -> parabola a b c x2 = parabola a' b' c' x2 ->
  b = b' /\ c = c'.
Proof.
  unfold parabola. intros x0 x1 x2 a b c a' b' c' H1 H2 E0 E1 E2.
  assert (D1 : (x1 - x0) * ((b - b') + (c - c') * (x0 + x1)) = 0) by (ring_simplify; ring_simplify in E0; ring_simplify in E1; lra).
  assert (D2 : (x2 - x1) * ((b - b') + (c - c') * (x1 + x2)) = 0) by (ring_simplify; ring_simplify in E2; ring_simplify in E1; lra).
  apply Rmult_integral in D1. apply Rmult_integral in D2. destruct D1 as [D1|D1]; [lra|]. destruct D2 as [D2|D2]; [lra|].
  assert (D3 : (c - c') * (x2 - x0) = 0) by lra. apply Rmult_integral in D3. destruct D3 as [D3|D3]; [|lra].
  assert (c = c') by lra. subst c'. split; [|reflexivity]. rewrite D3 in D1. lra.
Qed.

Lemma slopes_unique : forall xs fs d d', length xs = length fs -> ascending xs -> slopes xs fs d -> slopes xs fs d' -> d = d'.
Proof.
  intros xs fs d d' L A [L1 H1] [L2 H2]. apply nth_ext with (d := 0) (d' := 0); [lia|]. intros i Hi.
  destruct (H1 i ltac:(lia)) as (j & a & b & c & J1 & J2 & J3 & J4 & P & E).
  destruct (H2 i ltac:(lia)) as (j' & a' & b' & c' & K1 & K2 & K3 & K4 & P' & E').
  assert (j' = j). { destruct i as [|i]; [lia|]. destruct (Nat.eq_dec (S i + 1) (length fs)); [lia|]. lia. } subst j'.
  rewrite E, E'. assert (B0 := A j ltac:(lia)). assert (B1 := A (j + 1)%nat ltac:(lia)). replace (j + 1 + 1)%nat with (j + 2)%nat in B1 by lia.
  destruct (parabola_unique _ _ _ a b c a' b' c' B0 B1) as [-> ->].
  - rewrite <- P, <- P' by lia. reflexivity.
  - rewrite <- P, <- P' by lia. reflexivity.
  - rewrite <- P, <- P' by lia. reflexivity.
  - reflexivity.
Qed.

Lemma nth_map0 : forall (f : R -> R) l i, (i < length l)%nat -> nth i (map f l) 0 = f (nth i l 0).
Proof. intros f l i H. rewrite nth_indep with (d' := f 0) by (rewrite map_length; exact H). apply map_nth. Qed.

(** ** Exactness *)
Lemma slopes_exact : forall xs a b c, (2 < length xs)%nat ->
  slopes xs (map (parabola a b c) xs) (map (fun x => b + 2 * c * x) xs).
Proof.
  intros xs a b c H. split; [rewrite !map_length; reflexivity|]. rewrite map_length. intros i Hi.
  exists (if Nat.eqb i 0 then 0 else if Nat.eqb i (length xs - 1) then length xs - 3 else i - 1)%nat, a, b, c.
  split; [|split; [|split; [|split; [|split]]]];
    try (destruct (Nat.eqb_spec i 0); [|destruct (Nat.eqb_spec i (length xs - 1))]; lia).
  - intros k Hk. apply nth_map0. destruct (Nat.eqb_spec i 0); [|destruct (Nat.eqb_spec i (length xs - 1))]; lia.
  - apply (nth_map0 (fun x => b + 2 * c * x)). exact Hi.
Qed.

(** ** Symmetries *)
Lemma slopes_affine : forall xs fs ds u v, slopes xs fs ds -> slopes xs (map (fun f => u + v * f) fs) (map (fun d => v * d) ds).
Proof.
  intros xs fs ds u v [L H]. split; [rewrite !map_length; exact L|]. rewrite map_length. intros i Hi.
  destruct (H i Hi) as (j & a & b & c & J1 & J2 & J3 & J4 & P & E). exists j, (u + v * a), (v * b), (v * c).
  repeat (split; [assumption|]). split.
  - intros k Hk. rewrite (nth_map0 (fun f => u + v * f)) by lia. rewrite P by lia. unfold parabola. ring.
  - rewrite (nth_map0 (fun d => v * d)) by lia. rewrite E. ring.
Qed.

Lemma slopes_reverse : forall xs fs ds w, length xs = length fs -> slopes xs fs ds ->
  slopes (rev (map (fun x => w - x) xs)) (rev fs) (rev (map Ropp ds)).
Proof.
  intros xs fs ds w L [L1 H]. split; [rewrite !rev_length, map_length; exact L1|]. rewrite rev_length. intros i Hi.
  set (n := length fs) in *. destruct (H (n - 1 - i)%nat ltac:(lia)) as (j & a & b & c & J1 & J2 & J3 & J4 & P & E).
  exists (n - 3 - j)%nat, (a + b * w + c * w ^ 2), (- b - 2 * c * w), c.
  split; [lia|]. split; [intros ->; destruct (Nat.eq_dec (n - 1 - 0) 0); [lia|]; specialize (J3 ltac:(lia) ltac:(lia)); lia|].
  split; [intros; specialize (J2 ltac:(lia)); lia|]. split; [intros; specialize (J4 ltac:(lia) ltac:(lia)); lia|]. split.
  - intros k Hk. rewrite !rev_nth by (rewrite ?map_length; fold n; lia). rewrite map_length. rewrite L. fold n.
    rewrite (nth_map0 (fun x => w - x)) by lia. rewrite P by lia. unfold parabola. ring.
  - rewrite !rev_nth by (rewrite ?map_length; fold n; lia). rewrite !map_length. rewrite L, L1. fold n.
    rewrite (nth_map0 (fun x => w - x)) by lia. rewrite (nth_map0 Ropp) by lia. replace (n - S i)%nat with (n - 1 - i)%nat by lia. rewrite E. ring.
Qed.

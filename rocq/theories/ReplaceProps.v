(** C22: replacing the sightlines without a strong absorber. *)
From Coq Require Import ZArith List Reals Arith Lra Lia.
From Verif Require Import AbsorptionSpec FilterModel ReplaceModel ReplaceSpec ReplaceProofs.
Import ListNotations.
Local Open Scope R_scope.

(** If batch k is the first after which n sightlines passed the threshold, the call returns after generating
    exactly that batch, and the object holds the first n sightlines that passed, in the order generated, with
    their column densities. *)
Theorem C22_result : forall (P : Type) (col : P -> Z -> list R) fuel th n axis (gen : nat -> list P) k found,
  (1 <= n <= length axis)%nat -> (forall j, length (gen j) = length axis) ->
  selection (fun s => passes th (rsum (col (fst s) (snd s)))) (generated axis gen (S k)) found ->
  (n <= length found)%nat ->
  (forall j sub, (j <= k)%nat -> selection (fun s => passes th (rsum (col (fst s) (snd s)))) (generated axis gen j) sub ->
     (length sub < n)%nat) ->
  (k <= fuel)%nat ->
  exists r, replace_not_DLA P col fuel th n axis gen = Done r /\
    new_cofm r = map (fun x => Some (fst x)) (firstn n found) /\
    new_colden r = map (fun x => Some (col (fst x) (snd x))) (firstn n found) /\
    new_axis r = firstn n axis /\ new_numlos r = n /\
    new_discarded r = ((length axis * S k - length found) * n / length found)%nat.
Proof. exact C22_result_aux. Qed.
Print Assumptions C22_result.

(** If the batches never hold n such sightlines the call does not return. *)
Theorem C22_running : forall (P : Type) (col : P -> Z -> list R) fuel th n axis (gen : nat -> list P),
  (1 <= n <= length axis)%nat -> (forall j, length (gen j) = length axis) ->
  (forall j sub, selection (fun s => passes th (rsum (col (fst s) (snd s)))) (generated axis gen j) sub -> (length sub < n)%nat) ->
  replace_not_DLA P col fuel th n axis gen = Running.
Proof. exact C22_running_aux. Qed.
Print Assumptions C22_running.

(** When all sightlines run along one axis, the arrays fit together: each stored row is the column density of the
    stored position along the stored axis, and passes the threshold. *)
Theorem C22_consistent : forall (P : Type) (col : P -> Z -> list R) fuel th n axis (gen : nat -> list P) a r,
  (1 <= n <= length axis)%nat -> (forall j, length (gen j) = length axis) -> (forall x, In x axis -> x = a) ->
  replace_not_DLA P col fuel th n axis gen = Done r ->
  new_numlos r = n /\ new_axis r = repeat a n /\
  exists positions, length positions = n /\ new_cofm r = map Some positions /\
    new_colden r = map (fun p => Some (col p a)) positions /\ Forall (fun p => passes th (rsum (col p a))) positions.
Proof. exact C22_consistent_aux. Qed.
Print Assumptions C22_consistent.

(** With mixed axes they do not: the axes are cut, not selected. *)
Theorem C22_axes_refuted : exists (col : nat -> Z -> list R) axis (gen : nat -> list nat) r,
  replace_not_DLA nat col 0 (Above 1) 1 axis gen = Done r /\
  new_cofm r = [Some 7%nat] /\ new_axis r = [1%Z] /\ new_colden r = [Some (col 7%nat 2%Z)] /\ col 7%nat 2%Z <> col 7%nat 1%Z /\
  ~ passes (Above 1) (rsum (col 7%nat 1%Z)).
Proof. exact C22_axes_aux. Qed.
Print Assumptions C22_axes_refuted.

(** Asking for more sightlines than one batch holds: one more is lost without an error, two or more raise, even
    when every sightline passes. *)
Theorem C22_too_many_refuted : forall (P : Type) (col : P -> Z -> list R) th axis (gen : nat -> list P) n fuel,
  (forall p a, passes th (rsum (col p a))) -> (forall j, length (gen j) = length axis) ->
  (2 <= length axis)%nat -> (length axis < n)%nat -> (1 <= fuel)%nat ->
  (n = S (length axis) /\ exists r, replace_not_DLA P col fuel th n axis gen = Done r /\
     new_numlos r = S (length axis) /\ length (new_cofm r) = length axis /\ length (new_colden r) = length axis) \/
  ((S (length axis) < n)%nat /\ replace_not_DLA P col fuel th n axis gen = Raises).
Proof. exact C22_too_many_aux. Qed.
Print Assumptions C22_too_many_refuted.

(** Two sightlines per batch, position p has column density p; three batches 0,5 / 1,2 / 7,8; above 4: the second
    and third batch are needed for two sightlines. *)
Example C22_example : exists r,
  replace_not_DLA R (fun p _ => [p]) 5 (Above 4) 2 [1%Z; 1%Z]
    (fun j => match j with O => [0; 5] | 1%nat => [1; 2] | _ => [7; 8] end) = Done r /\
  new_cofm r = [Some 5; Some 7] /\ new_discarded r = 2%nat.
Proof.
  destruct (C22_result R (fun p _ => [p]) 5 (Above 4) 2 [1%Z; 1%Z]
    (fun j => match j with O => [0; 5] | 1%nat => [1; 2] | _ => [7; 8] end) 2 [(5, 1%Z); (7, 1%Z); (8, 1%Z)]) as (r & H & H1 & _ & _ & _ & H2).
  - cbn. lia.
  - intros [|[|j]]; reflexivity.
  - cbn [generated seq flat_map combine app]. repeat first [constructor; [cbn; lra|] | constructor 3; [cbn; lra|] | constructor 1].
  - cbn. lia.
  - intros j sub Hj Hs. assert (Hl : forall l s, selection (fun s => passes (Above 4) (rsum [fst s])) l s -> forall s', selection (fun s : R * Z => passes (Above 4) (rsum [fst s])) l s' -> length s = length s').
    { intros l s A s' B. rewrite (selection_det _ _ _ _ _ A B). reflexivity. }
    destruct j as [|[|[|j]]]; [| | |lia]; cbn [generated seq flat_map combine app] in Hs.
    + inversion Hs; subst. cbn. lia.
    + rewrite (Hl _ _ Hs [(5, 1%Z)]); [cbn; lia|].
      repeat first [constructor 2; [cbn; lra|] | constructor 3; [cbn; lra|] | constructor 1].
    + rewrite (Hl _ _ Hs [(5, 1%Z)]); [cbn; lia|].
      repeat first [constructor 2; [cbn; lra|] | constructor 3; [cbn; lra|] | constructor 1].
  - lia.
  - exists r. split; [assumption|]. split; [assumption|]. rewrite H2. reflexivity.
Qed.

(** A generator whose sightlines never pass. *)
Example C22_running_example : replace_not_DLA nat (fun _ _ => [0]) 9 (Above 1) 1 [1%Z] (fun _ => [3%nat]) = Running.
Proof.
  apply C22_running; [cbn; lia|reflexivity|]. intros j sub H.
  assert (G : forall l : list (nat * Z), selection (fun _ => passes (Above 1) (rsum [0])) l sub -> sub = []).
  { intros l Hl. remember sub as s0 eqn:E. clear E H. induction Hl as [|x l s Hp| ]; [reflexivity| |assumption]. exfalso. cbn in Hp. lra. }
  rewrite (G _ H). cbn. lia.
Qed.

(** Column density equal to the position, one axis: hypotheses of [C22_consistent] met. *)
Example C22_consistent_example : exists r,
  replace_not_DLA R (fun p _ => [p]) 0 (Between 4 6) 1 [2%Z; 2%Z] (fun _ => [0; 5]) = Done r /\ new_cofm r = [Some 5].
Proof.
  destruct (C22_result R (fun p _ => [p]) 0 (Between 4 6) 1 [2%Z; 2%Z] (fun _ => [0; 5]) 0 [(5, 2%Z)]) as (r & H & H1 & _).
  - cbn. lia.
  - reflexivity.
  - cbn [generated seq flat_map combine app]. constructor 3; [cbn; lra|]. constructor 2; [cbn; lra|constructor].
  - cbn. lia.
  - intros j sub Hj Hs. assert (j = 0)%nat by lia. subst j. inversion Hs. cbn. lia.
  - lia.
  - exists r. split; assumption.
Qed.

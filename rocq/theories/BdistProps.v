(** The cut-off of the line widths (voigtfit.get_b_param_dist): theorems. *)
From Coq Require Import List Reals Arith Lia Lra.
From Verif Require Import AbsorptionSpec FilterModel BdistModel BdistSpec BdistProofs3 BdistProofs2.
Import ListNotations.
Local Open Scope R_scope.

(** C64.  For every minimiser and all fitted systems the search ends.  The systems used have 8 < b < 100 and
    12.5 < log N < 14.5; in each quarter of a decade the ones with b < 40 are clipped at two standard deviations until
    all left are closer to their mean; those are fitted, and refitted without the ones above the fit until there are
    none - but only if some system was not usable to start with, otherwise the guess takes the place of the fit; then
    the ones below are left out and the last fit is returned. *)
Theorem C64_cutoff : forall (fit : R * R -> list (R * R) -> R * R) obs fuel, (length obs <= fuel)%nat ->
  exists pts, usable_points obs pts /\
  ((exists i, (i < 8)%nat /\ forall p, In p pts -> ~ quarter i p) -> get_b_param_dist fit fuel obs = Raises) /\
  ((forall i, (i < 8)%nat -> exists p, In p pts /\ quarter i p) ->
   exists (low kept : nat -> list (R * R)) guess x left last,
     (forall i, (i < 8)%nat -> chosen (fun p => quarter i p /\ narrow p) pts (low i) /\ clipped (low i) (kept i)) /\
     Rpower 10 (fst guess) = 18 /\ snd guess = 0.17 /\
     ((length pts < length obs)%nat -> settled fit guess (concat (map kept (seq 0 8))) x left) /\
     (length pts = length obs -> x = guess /\ left = concat (map kept (seq 0 8))) /\
     chosen (not_below left x) left last /\
     get_b_param_dist fit fuel obs = Done (Rpower 10 (fst (fit x last)), snd (fit x last))).
Proof. exact C64_cutoff_aux. Qed.
Print Assumptions C64_cutoff.

(** C64.  It raises an error exactly if one of the eight quarters has no usable system, and otherwise returns. *)
Theorem C64_empty : forall (fit : R * R -> list (R * R) -> R * R) obs fuel, (length obs <= fuel)%nat ->
  (get_b_param_dist fit fuel obs = Raises <->
   exists i, (i < 8)%nat /\ forall s, In s obs -> usable s -> ~ in_quarter i s) /\
  get_b_param_dist fit fuel obs <> Running.
Proof. exact C64_empty_aux. Qed.
Print Assumptions C64_empty.

(** C64.  A round of the clipping takes out at most a quarter of the points, unless all have the same width. *)
Theorem C64_round : forall l l', chosen (typical l) l l' ->
  l = [] \/ spread (map snd l) = 0 \/ (3 * length l <= 4 * length l')%nat.
Proof. exact C64_quarter_aux. Qed.
Print Assumptions C64_round.

(** C64.  But if the systems of each quarter with b < 40 have the same width - in particular if there is only one - all
    are taken out, and the "fit" is one to no points at all. *)
Theorem C64_lone : forall (fit : R * R -> list (R * R) -> R * R) obs fuel, (length obs <= fuel)%nat ->
  (forall i, (i < 8)%nat -> exists s, In s obs /\ usable s /\ in_quarter i s) ->
  (forall i s s', (i < 8)%nat -> In s obs -> In s' obs -> usable s -> usable s' -> in_quarter i s -> in_quarter i s' ->
     snd s < 40 -> snd s' < 40 -> snd s = snd s') ->
  exists x, get_b_param_dist fit fuel obs = Done (Rpower 10 (fst (fit x [])), snd (fit x [])).
Proof. exact C64_lone_aux. Qed.
Print Assumptions C64_lone.

(** Eight systems of width 20, one in each quarter. *)
Definition eight : list (R * R) := map (fun i => (Rpower 10 (12.6 + INR i / 4), 20)) (seq 0 8).

Lemma eight_in : forall s, In s eight -> exists i, (i < 8)%nat /\ s = (Rpower 10 (12.6 + INR i / 4), 20).
Proof. intros s I. apply in_map_iff in I. destruct I as (i & <- & I). apply in_seq in I. exists i. split; [lia|reflexivity]. Qed.

Lemma eight_fine : forall i, (i < 8)%nat ->
  let s := (Rpower 10 (12.6 + INR i / 4), 20) in In s eight /\ usable s /\ in_quarter i s.
Proof.
  intros i Hi s. assert (B : 0 <= INR i <= 7).
  { split; [apply pos_INR|]. replace 7 with (INR 7) by (cbn; lra). apply le_INR. lia. }
  split; [|split].
  - apply in_map_iff. exists i. split; [reflexivity|]. apply in_seq. lia.
  - split; cbn [fst snd s]; [lra|]. rewrite !pow_lt_iff. lra.
  - unfold in_quarter; cbn [fst s]. rewrite pow_lt_iff, S_INR. split; [left; apply pow_lt_iff; lra|lra].
Qed.

Example eight_lost : forall fit, exists x,
  get_b_param_dist fit 8 eight = Done (Rpower 10 (fst (fit x [])), snd (fit x [])).
Proof.
  intros fit. apply C64_lone; [cbn; lia| |].
  - intros i Hi. exists (Rpower 10 (12.6 + INR i / 4), 20). exact (eight_fine i Hi).
  - intros i s s' _ I I' _ _ _ _ _ _. destruct (eight_in s I) as (j & _ & ->). destruct (eight_in s' I') as (j' & _ & ->). reflexivity.
Qed.

(** Two systems of different widths are both kept. *)
Example pair_kept : clipped [(13, 1); (13.1, 1.2)] [(13, 1); (13.1, 1.2)].
Proof.
  apply clip_end.
  assert (A : average (map snd [(13, 1); (13.1, 1.2)]) = 1.1) by (unfold average, rsum; cbn; lra).
  assert (Sp : spread (map snd [(13, 1); (13.1, 1.2)]) = 0.1).
  { unfold spread. rewrite A. unfold average, rsum. cbn [map fold_right length snd INR].
    replace (((1 - 1.1) ^ 2 + ((1.2 - 1.1) ^ 2 + 0)) / (1 + 1)) with (0.1 * 0.1) by lra. apply sqrt_square. lra. }
  intros p I. unfold typical. rewrite A, Sp.
  destruct I as [<-|[<-|[]]]; cbn [snd]; unfold Rabs; destruct (Rcase_abs _); lra.
Qed.

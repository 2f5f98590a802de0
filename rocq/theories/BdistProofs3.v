(** Proofs about the cut-off of the line widths: what the rejection can and cannot discard. *)
From Coq Require Import List Reals Arith Bool Lia Lra Permutation.
From Verif Require Import AbsorptionSpec FilterModel BdistModel BdistSpec BdistProofs BdistProofs2.
Import ListNotations.
Local Open Scope R_scope.

Lemma chosen_in : forall P l k p, chosen P l k -> In p k -> In p l /\ P p.
Proof. intros P l k p (f & -> & H) I. apply filter_In in I. destruct I as [I F]. split; [exact I|]. apply H; assumption. Qed.

Lemma rsum_const : forall (l : list R) v, (forall x, In x l -> x = v) -> rsum l = INR (length l) * v.
Proof.
  induction l as [|a l IH]; intros v H; cbn [rsum fold_right length]; [cbn [INR]; lra|].
  rewrite S_INR. rewrite (H a (or_introl eq_refl)).
  pose proof (IH v (fun x I => H x (or_intror I))) as E. unfold rsum in E |- *. cbn [fold_right]. lra.
Qed.

Lemma spread_const : forall (l : list R) v, l <> [] -> (forall x, In x l -> x = v) -> average l = v /\ spread l = 0.
Proof.
  intros l v Hne H. assert (P : 0 < INR (length l)) by (apply lt_0_INR; destruct l; [contradiction|cbn; lia]).
  assert (A : average l = v) by (unfold average; rewrite (rsum_const l v H); field; lra).
  split; [exact A|]. unfold spread. rewrite A.
  assert (E : average (map (fun x => (x - v) ^ 2) l) = 0).
  { unfold average. rewrite (rsum_const _ 0); [unfold Rdiv; rewrite Rmult_0_r, Rmult_0_l; reflexivity|].
    intros y I. apply in_map_iff in I. destruct I as (x & <- & I). rewrite (H x I). ring. }
  rewrite E. apply sqrt_0.
Qed.

(** Points of one width are all taken out. *)
Lemma clipped_one_width : forall l k v, clipped l k -> (forall p, In p l -> snd p = v) -> k = [].
Proof.
  intros l k v C. induction C as [l H|l l' k Ch Lt C IH]; intros Hv.
  - destruct l as [|p l]; [reflexivity|]. exfalso.
    destruct (spread_const (map snd (p :: l)) v) as [A B]; [discriminate| |].
    + intros x I. apply in_map_iff in I. destruct I as (q & <- & I). exact (Hv q I).
    + specialize (H p (or_introl eq_refl)). unfold typical in H. rewrite A, B, (Hv p (or_introl eq_refl)) in H.
      pose proof (Rabs_pos (v - v)). lra.
  - apply IH. intros p I. apply Hv. destruct (chosen_in _ _ _ p Ch I) as [J _]. exact J.
Qed.

(** Otherwise at most a quarter of the points goes in a round. *)
Lemma far_sum : forall (l : list (R * R)) (f : R * R -> bool) a t, 0 <= t ->
  (forall p, In p l -> f p = false -> t <= (snd p - a) ^ 2) ->
  (INR (length l) - INR (length (filter f l))) * t <= rsum (map (fun x => (x - a) ^ 2) (map snd l)).
Proof.
  induction l as [|p l IH]; intros f a t Ht H; cbn [map filter length]; [cbn; lra|].
  pose proof (IH f a t Ht (fun q I => H q (or_intror I))) as E.
  unfold rsum in *. cbn [fold_right].
  destruct (f p) eqn:F; cbn [length]; rewrite ?S_INR.
  - pose proof (pow2_ge_0 (snd p - a)). lra.
  - pose proof (H p (or_introl eq_refl) F). lra.
Qed.

Lemma C64_quarter_aux : forall l l', chosen (typical l) l l' ->
  l = [] \/ spread (map snd l) = 0 \/ (3 * length l <= 4 * length l')%nat.
Proof.
  intros l l' (f & -> & H). destruct l as [|p0 l0] eqn:El; [left; reflexivity|right]. rewrite <- El in *.
  assert (P : 0 < INR (length l)) by (apply lt_0_INR; rewrite El; cbn; lia). clear El p0 l0.
  set (s := spread (map snd l)). set (a := average (map snd l)).
  assert (S0 : 0 <= s) by apply sqrt_pos.
  destruct (Req_dec s 0) as [E|E]; [left; exact E|right].
  assert (Sp : 0 < s) by lra.
  assert (V : rsum (map (fun x => (x - a) ^ 2) (map snd l)) = INR (length l) * s ^ 2).
  { unfold s, spread. fold a. rewrite <- Rsqr_pow2, Rsqr_sqrt.
    - unfold average. rewrite !map_length. field. lra.
    - unfold average. apply Rmult_le_pos; [|left; apply Rinv_0_lt_compat; rewrite !map_length; exact P].
      generalize a. clear. intros a. induction l as [|p l IH]; cbn [map]; unfold rsum in *; cbn [fold_right]; [lra|].
      pose proof (pow2_ge_0 (snd p - a)). lra. }
  assert (F : (INR (length l) - INR (length (filter f l))) * (4 * s ^ 2) <= INR (length l) * s ^ 2).
  { rewrite <- V. apply far_sum; [pose proof (pow2_ge_0 s); lra|]. intros p I Fp.
    assert (N : ~ typical l p) by (intros T; apply H in T; [congruence|exact I]).
    unfold typical in N. fold s a in N. apply Rnot_lt_le in N.
    replace ((snd p - a) ^ 2) with (Rabs (snd p - a) * Rabs (snd p - a)) by (rewrite <- Rsqr_pow2, (Rsqr_abs (snd p - a)); reflexivity).
    replace (4 * s ^ 2) with ((2 * s) * (2 * s)) by ring. apply Rmult_le_compat; lra. }
  assert (Q : (INR (length l) - INR (length (filter f l))) * 4 <= INR (length l)).
  { apply (Rmult_le_reg_r (s ^ 2)); [apply pow_lt; exact Sp|]. lra. }
  apply INR_le. rewrite !mult_INR. cbn [INR]. lra.
Qed.

Lemma pow_lt_iff : forall a b, Rpower 10 a < Rpower 10 b <-> a < b.
Proof.
  intros a b. split; intros H.
  - destruct (Rlt_dec a b) as [A|A]; [exact A|]. assert (B : b <= a) by lra. apply (Rle_Rpower 10) in B; lra.
  - apply Rpower_lt; lra.
Qed.

Lemma pow_inj : forall a b, Rpower 10 a = Rpower 10 b -> a = b.
Proof.
  intros a b H. destruct (Rtotal_order a b) as [L|[E|L]]; [|exact E|]; apply pow_lt_iff in L; lra.
Qed.

Lemma logs_quarter : forall s p i, logs s p -> (in_quarter i s <-> quarter i p).
Proof.
  intros s p i [E _]. unfold in_quarter, quarter. rewrite E. pose proof (pow_lt_iff (fst p) (12.5 + INR i / 4)) as A.
  pose proof (pow_lt_iff (fst p) (12.5 + INR (S i) / 4)) as B. split; intros [L U]; split.
  - apply Rnot_lt_le. intros X. apply A in X. lra.
  - apply B; exact U.
  - apply Rnot_lt_le. intros X. apply A in X. lra.
  - apply B; exact U.
Qed.

Lemma Forall2_left : forall (P : R * R -> R * R -> Prop) a b s, Forall2 P a b -> In s a -> exists p, In p b /\ P s p.
Proof.
  intros P a b s F. induction F as [|x y a b Pxy F IH]; intros I; [destruct I|].
  destruct I as [<-|I]; [exists y; split; [left; reflexivity|exact Pxy]|].
  destruct (IH I) as (p & J & Q). exists p. split; [right; exact J|exact Q].
Qed.

Lemma Forall2_right : forall (P : R * R -> R * R -> Prop) a b p, Forall2 P a b -> In p b -> exists s, In s a /\ P s p.
Proof.
  intros P a b p F. induction F as [|x y a b Pxy F IH]; intros I; [destruct I|].
  destruct I as [<-|I]; [exists x; split; [left; reflexivity|exact Pxy]|].
  destruct (IH I) as (s & J & Q). exists s. split; [right; exact J|exact Q].
Qed.

Lemma points_systems : forall obs pts, usable_points obs pts ->
  (forall s, In s obs -> usable s -> exists p, In p pts /\ logs s p) /\
  (forall p, In p pts -> exists s, In s obs /\ usable s /\ logs s p).
Proof.
  intros obs pts (f & l & Hf & F & Pm). split.
  - intros s I U. destruct (Forall2_left _ _ _ s F) as (p & J & L); [apply filter_In; split; [exact I|apply Hf; exact U]|].
    exists p. split; [exact (Permutation_in _ Pm J)|exact L].
  - intros p I. destruct (Forall2_right _ _ _ p F (Permutation_in _ (Permutation_sym Pm) I)) as (s & J & L).
    apply filter_In in J. exists s. split; [tauto|]. split; [apply Hf; tauto|exact L].
Qed.

Section Fit.
Variable fit : R * R -> list (R * R) -> R * R.

Lemma C64_empty_aux : forall obs fuel, (length obs <= fuel)%nat ->
  (get_b_param_dist fit fuel obs = Raises <->
   exists i, (i < 8)%nat /\ forall s, In s obs -> usable s -> ~ in_quarter i s) /\
  get_b_param_dist fit fuel obs <> Running.
Proof.
  intros obs fuel Hf. destruct (C64_cutoff_aux fit obs fuel Hf) as (pts & U & A & B).
  destruct (points_systems _ _ U) as [U1 U2].
  assert (D : (exists i, (i < 8)%nat /\ forall s, In s obs -> usable s -> ~ in_quarter i s) \/
      (forall i, (i < 8)%nat -> exists p, In p pts /\ quarter i p)).
  { assert (G : forall n, (exists i, (i < n)%nat /\ forall p, In p pts -> ~ quarter i p) \/
      (forall i, (i < n)%nat -> exists p, In p pts /\ quarter i p)).
    { induction n as [|n IH]; [right; lia|]. destruct IH as [(i & Hi & H)|IH]; [left; exists i; split; [lia|exact H]|].
      destruct (filter (in_bin n) pts) as [|p l] eqn:E.
      - left. exists n. split; [lia|]. intros p I Q. apply in_bin_quarter in Q.
        assert (J : In p (filter (in_bin n) pts)) by (apply filter_In; split; assumption). rewrite E in J. destruct J.
      - right. intros i Hi. destruct (Nat.eq_dec i n) as [->|Ne]; [|apply IH; lia].
        assert (J : In p (filter (in_bin n) pts)) by (rewrite E; left; reflexivity).
        apply filter_In in J. exists p. split; [tauto|]. apply in_bin_quarter; tauto. }
    destruct (G 8%nat) as [(i & Hi & H)|H]; [left|right; exact H].
    exists i. split; [exact Hi|]. intros s I Us Q. destruct (U1 s I Us) as (p & J & L).
    apply (H p J). apply (logs_quarter s p i L). exact Q. }
  assert (A' : (exists i, (i < 8)%nat /\ forall s, In s obs -> usable s -> ~ in_quarter i s) -> get_b_param_dist fit fuel obs = Raises).
  { intros (i & Hi & H). apply A. exists i. split; [exact Hi|]. intros p I Q.
    destruct (U2 p I) as (s & J & Us & L). apply (H s J Us). apply (logs_quarter s p i L). exact Q. }
  split; [split; [|exact A']|].
  - intros E. destruct D as [D|D]; [exact D|]. exfalso.
    destruct (B D) as (? & ? & ? & ? & ? & ? & _ & _ & _ & _ & _ & _ & R). rewrite R in E. discriminate.
  - destruct D as [D|D]; [rewrite (A' D); discriminate|].
    destruct (B D) as (? & ? & ? & ? & ? & ? & _ & _ & _ & _ & _ & _ & R). rewrite R. discriminate.
Qed.

Lemma settled_nil : forall z l x k, settled fit z l x k -> l = [] -> k = [].
Proof.
  intros z l x k H. induction H as [z l H|z l l' x k C L H IH]; intros E; [exact E|]. subst l. cbn in L. lia.
Qed.

Lemma C64_lone_aux : forall obs fuel, (length obs <= fuel)%nat ->
  (forall i, (i < 8)%nat -> exists s, In s obs /\ usable s /\ in_quarter i s) ->
  (forall i s s', (i < 8)%nat -> In s obs -> In s' obs -> usable s -> usable s' -> in_quarter i s -> in_quarter i s' ->
     snd s < 40 -> snd s' < 40 -> snd s = snd s') ->
  exists x, get_b_param_dist fit fuel obs = Done (Rpower 10 (fst (fit x [])), snd (fit x [])).
Proof.
  intros obs fuel Hf Hq Hs. destruct (C64_cutoff_aux fit obs fuel Hf) as (pts & U & _ & B).
  destruct (points_systems _ _ U) as [U1 U2].
  destruct B as (low & kept & guess & x & left & last & K & _ & _ & S1 & S2 & L & R).
  { intros i Hi. destruct (Hq i Hi) as (s & I & Us & Q). destruct (U1 s I Us) as (p & J & Lg).
    exists p. split; [exact J|]. apply (logs_quarter s p i Lg). exact Q. }
  assert (Kn : forall i, (i < 8)%nat -> kept i = []).
  { intros i Hi. destruct (K i Hi) as [C D]. destruct (low i) as [|p0 l0] eqn:El.
    - inversion D as [|? l' ? ? Lt]; subst; [congruence|cbn in Lt; lia].
    - apply (clipped_one_width _ _ (snd p0) D). intros p I.
      destruct (chosen_in _ _ _ p C I) as [I1 [Q1 N1]].
      destruct (chosen_in _ _ _ p0 C (or_introl eq_refl)) as [I2 [Q2 N2]].
      destruct (U2 p I1) as (s & J1 & V1 & L1). destruct (U2 p0 I2) as (s0 & J2 & V2 & L2).
      pose proof (proj2 (logs_quarter s p i L1) Q1) as W1. pose proof (proj2 (logs_quarter s0 p0 i L2) Q2) as W2.
      unfold narrow in N1, N2. destruct L1 as [_ L1]. destruct L2 as [_ L2]. rewrite <- L1 in N1. rewrite <- L2 in N2.
      pose proof (Hs i s s0 Hi J1 J2 V1 V2 W1 W2 N1 N2) as E. rewrite L1, L2 in E. apply pow_inj. exact E. }
  assert (Kc : concat (map kept (seq 0 8)) = []).
  { cbn [seq map concat]. rewrite !Kn by lia. reflexivity. }
  assert (Ll : left = []).
  { destruct (Nat.lt_trichotomy (length pts) (length obs)) as [T|[T|T]].
    - apply (settled_nil _ _ _ _ (S1 T)). exact Kc.
    - rewrite (proj2 (S2 T)). exact Kc.
    - exfalso. destruct U as (f & l & _ & F & Pm). assert (Fl : length (filter f obs) = length l) by (clear -F; induction F; cbn; congruence). apply Permutation_length in Pm.
      pose proof (filter_le _ f (fun _ => true) obs (fun _ _ _ => eq_refl)) as Q. rewrite filter_true in Q. unfold pt in *. lia. }
  exists x. rewrite R. destruct L as (f & -> & _). rewrite Ll. reflexivity.
Qed.

End Fit.

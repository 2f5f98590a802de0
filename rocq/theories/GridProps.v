(** Interpolated gas properties: theorems.  The interpolator is any function; the networks any of those shipped. *)
From Coq Require Import Reals List Bool Lia Lra.
From Verif Require Import RatesModel RatesSpec RatesProofs NeutralModel GridModel GridSpec GridProofs2 GridProofs3 GridProofs4.
Import ListNotations.
Local Open Scope R_scope.

(** C66.  What get_reproc_HI does with a segment, when star forming gas is taken as neutral: every outcome, and the value of
    each particle from its own density and energy alone. *)
Theorem C66_fraction : forall eval n mi bg z maxdens tf gf mean g ps,
  make n mi true bg z maxdens tf gf mean = Some g -> thinnest z < maxdens -> 0 < tf ->
  Forall (fun p => 0 < fst p /\ 0 < snd p) ps ->
  ((forall p, In p ps -> maxdens <= fst p) -> reproc_HI eval g ps = EmptyMax) /\
  ((exists p, In p ps /\ fst p < thinnest z) -> reproc_HI eval g ps = OffGrid) /\
  ((exists p, In p ps /\ fst p < maxdens) -> (forall p, In p ps -> thinnest z <= fst p) ->
   exists out, reproc_HI eval g ps = Done out /\
     Forall2 (fun p f => forall e, read_at (ln (energy tf gf mean (fst p) (snd p))) e ->
       (fst p < maxdens -> f = exp (eval (densgrid g) (ienergygrid g) (lh0grid g) (ln (fst p)) e)) /\
       (maxdens <= fst p -> f = match bg with Some b => neutral_fraction b (fst p) 1e4 | None => 1 end)) ps out).
Proof. exact C66_fraction_aux. Qed.
Print Assumptions C66_fraction.

Theorem C66_temp : forall eval n mi bg z maxdens tf gf mean g ps,
  make n mi true bg z maxdens tf gf mean = Some g -> thinnest z < maxdens -> 0 < tf ->
  Forall (fun p => 0 < fst p /\ 0 < snd p) ps ->
  ((forall p, In p ps -> maxdens <= fst p) -> temp eval g ps = EmptyMax) /\
  ((exists p, In p ps /\ fst p < thinnest z) -> temp eval g ps = OffGrid) /\
  ((exists p, In p ps /\ fst p < maxdens) -> (forall p, In p ps -> thinnest z <= fst p) ->
   exists out, temp eval g ps = Done out /\
     Forall2 (fun p f => forall e, read_at (ln (energy tf gf mean (fst p) (snd p))) e ->
       (fst p < maxdens -> f = exp (eval (densgrid g) (ienergygrid g) (tempgrid g) (ln (fst p)) e)) /\
       (maxdens <= fst p -> f = 1e4)) ps out).
Proof. exact C66_temp_aux. Qed.
Print Assumptions C66_temp.

(** C66.  Reading the gas in two parts gives the same values, if both parts can be read. *)
Theorem C66_split : forall eval n mi bg z maxdens tf gf mean g ps qs,
  make n mi true bg z maxdens tf gf mean = Some g -> thinnest z < maxdens -> 0 < tf ->
  Forall (fun p => 0 < fst p /\ 0 < snd p) ps -> Forall (fun p => 0 < fst p /\ 0 < snd p) qs ->
  (forall a b, reproc_HI eval g ps = Done a -> reproc_HI eval g qs = Done b -> reproc_HI eval g (ps ++ qs) = Done (a ++ b)) /\
  (forall a b, temp eval g ps = Done a -> temp eval g qs = Done b -> temp eval g (ps ++ qs) = Done (a ++ b)).
Proof. exact C66_split_aux. Qed.
Print Assumptions C66_split.

(** C66.  But a part of star forming gas only cannot be read, although together with one thinner particle it can. *)
Theorem C66_empty_refuted : forall eval n mi bg z maxdens tf gf mean g p q,
  make n mi true bg z maxdens tf gf mean = Some g -> thinnest z < maxdens -> 0 < tf ->
  0 < snd p -> 0 < snd q -> thinnest z <= fst p < maxdens -> maxdens <= fst q ->
  (exists out, reproc_HI eval g ([p] ++ [q]) = Done out) /\ reproc_HI eval g [q] = EmptyMax /\ temp eval g [q] = EmptyMax.
Proof. exact C66_empty_aux. Qed.
Print Assumptions C66_empty_refuted.

(** C66.  A particle on a point of the grid gets the solution of the network for its own density and energy. *)
Theorem C66_node : forall eval, interpolates eval -> forall n mi bg z maxdens tf gf mean g ps k p d e,
  shipped (recomb n) -> 0 <= photo_factor n ->
  make n mi true bg z maxdens tf gf mean = Some g -> thinnest z < maxdens -> 0 < tf ->
  Forall (fun p => 0 < fst p /\ 0 < snd p) ps ->
  nth_error ps k = Some p -> In d (densgrid g) -> In e (ienergygrid g) ->
  fst p = exp d -> energy tf gf mean (fst p) (snd p) = exp e -> fst p < maxdens -> 2 < e < 21 ->
  (forall out, reproc_HI eval g ps = Done out -> exists f x t, nth_error out k = Some f /\
     solution n (fst p) (exp e) x t /\ f = nH0 n (fst p * (1 - 0.24)) t x /\ 0 < f <= 1) /\
  (forall out, temp eval g ps = Done out -> exists x t, nth_error out k = Some t /\ solution n (fst p) (exp e) x t).
Proof. exact C66_node_aux. Qed.
Print Assumptions C66_node.

(** C66.  If star forming gas is not taken as neutral, gas denser than the table is solved directly: each particle gets a
    solution for its own density and energy. *)
Theorem C66_direct : forall eval n mi bg z tf gf mean maxdens g ps out, shipped (recomb n) -> 0 <= photo_factor n ->
  make n mi false bg z maxdens tf gf mean = Some g -> 0 < maxdens -> 0 < tf -> Forall (fun p => 0 < fst p /\ 0 < snd p) ps ->
  reproc_HI eval g ps = Done out ->
  Forall2 (fun p f =>
    (fst p < exp 5 -> forall e, read_at (ln (energy tf gf mean (fst p) (snd p))) e ->
       f = exp (eval (densgrid g) (ienergygrid g) (lh0grid g) (ln (fst p)) e)) /\
    (exp 5 <= fst p -> exists x t, solution n (fst p) (energy tf gf mean (fst p) (snd p)) x t /\
       f = nH0 n (fst p * (1 - 0.24)) t x /\ 0 < f <= 1)) ps out.
Proof. exact C66_direct_aux. Qed.
Print Assumptions C66_direct.

(** C66.  The clamp reverses the order: whenever the tabulated temperature increases with energy there are two particles of
    the same density of which the one with more energy is given the lower temperature. *)
Theorem C66_clamp_refuted : forall eval n mi bg z maxdens mean g d,
  make n mi true bg z maxdens 1 1 mean = Some g -> thinnest z <= d < maxdens ->
  (forall e e', 2 <= e < e' /\ e' <= 21 ->
     eval (densgrid g) (ienergygrid g) (tempgrid g) (ln d) e < eval (densgrid g) (ienergygrid g) (tempgrid g) (ln d) e') ->
  exists u u' t t', 0 < u < u' /\ temp eval g [(d, u); (d, u')] = Done [t; t'] /\ t' < t.
Proof. exact C66_clamp_aux. Qed.
Print Assumptions C66_clamp_refuted.

(** C66.  Changing the equation of state: gas on U = u0 (rho/mean)^(gamma-1) is moved to tf u0 (rho/mean)^(gamma+gf-2), and
    the ratio s of a particle's energy to the equation of state is preserved. *)
Theorem C66_eos : forall g ps qs u0 gamma,
  0 < mean_density g -> get_ienergy_rescaled g ps = Some qs ->
  Forall2 (fun p q => fst q = fst p /\ 0 < snd q /\ forall s, 0 < fst p ->
     snd p = s * (u0 * Rpower (fst p / mean_density g) (gamma - 1)) ->
     snd q = s * ((temp_factor g * u0) * Rpower (fst p / mean_density g) ((gamma + (gamma_factor g - 1)) - 1))) ps qs.
Proof. exact C66_eos_aux. Qed.
Print Assumptions C66_eos.

(** An interpolator: the value at the grid point with these coordinates (0 elsewhere). *)
Fixpoint position (l : list R) (x : R) : nat :=
  match l with
  | [] => 0
  | a :: r => if Req_EM_T a x then 0 else S (position r x)
  end%nat.
Definition exact_point (xs ys : list R) (z : list (list R)) (x y : R) : R := nth (position ys y) (nth (position xs x) z []) 0.

Example exact_point_interpolates : interpolates exact_point.
Proof.
  assert (P : forall l i x, NoDup l -> nth_error l i = Some x -> position l x = i).
  { induction l as [|a l IH]; intros i x Nd N; [destruct i; discriminate|]. inversion Nd; subst. cbn [position].
    destruct i as [|i]; cbn [nth_error] in N.
    - injection N as ->. destruct (Req_EM_T x x); [reflexivity|congruence].
    - destruct (Req_EM_T a x) as [->|_]; [|rewrite (IH i x); auto]. exfalso. apply nth_error_In in N. contradiction. }
  intros xs ys z i j x y col v N1 N2 Hx Hy Hz Hc. unfold exact_point. rewrite (P xs i x), (P ys j y) by assumption.
  rewrite (nth_error_nth z i [] Hz). apply (nth_error_nth col j 0 Hc).
Qed.

(** A network with a loose tolerance, for which the tables can be shown to exist. *)
Definition loose : network := Network verner96 (-12) (-12) (-15) 1 true true 2.27e-18 0.17 10.

Example C66_example : exists g out out', make loose 500 true None 3 0.1 1 1 1e-5 = Some g /\
  reproc_HI exact_point g [(0.001, 100); (1, 1000)] = Done out /\ nth_error out 1 = Some 1 /\
  temp exact_point g [(0.001, 100); (1, 1000)] = Done out' /\ nth_error out' 1 = Some 1e4.
Proof.
  assert (T : thinnest 3 = exp (-16)) by (unfold thinnest; destruct (Rle_dec 1 3); [reflexivity|lra]).
  assert (L : exp (-16) < 0.001).
  { replace (-16) with (- (16)) by lra. rewrite exp_Ropp. assert (6561 <= exp 16).
    { pose proof (exp_ineq1 2 ltac:(lra)) as H2.
      assert (H4 : exp 4 = exp 2 * exp 2) by (rewrite <- exp_plus; f_equal; lra).
      assert (H8 : exp 8 = exp 4 * exp 4) by (rewrite <- exp_plus; f_equal; lra).
      assert (H16 : exp 16 = exp 8 * exp 8) by (rewrite <- exp_plus; f_equal; lra).
      assert (9 <= exp 4) by (rewrite H4; set (a := exp 2) in *; clearbody a; nra).
      assert (81 <= exp 8) by (rewrite H8; set (a := exp 4) in *; clearbody a; nra). rewrite H16; set (a := exp 8) in *; clearbody a; nra. }
    apply (Rmult_lt_reg_r (exp 16)); [apply exp_pos|]. rewrite Rinv_l by (pose proof (exp_pos 16); lra). lra. }
  destruct (loose_make loose 499 None 3 0.1 1 1 1e-5) as (g & Hg); [right; left; reflexivity|cbn [photo_factor loose]; lra|reflexivity|rewrite T; lra|].
  exists g.
  assert (F : Forall (fun p : R * R => 0 < fst p /\ 0 < snd p) [(0.001, 100); (1, 1000)])
    by (constructor; [cbn [fst snd]; lra|constructor; [cbn [fst snd]; lra|constructor]]).
  assert (X1 : exists p : R * R, In p [(0.001, 100); (1, 1000)] /\ fst p < 0.1) by (exists (0.001, 100); split; [left; reflexivity|cbn [fst]; lra]).
  assert (X2 : forall p : R * R, In p [(0.001, 100); (1, 1000)] -> thinnest 3 <= fst p) by (intros p [<-|[<-|[]]]; cbn [fst]; rewrite T; lra).
  destruct (C66_fraction exact_point loose 500 None 3 0.1 1 1 1e-5 g _ Hg ltac:(rewrite T; lra) ltac:(lra) F) as (_ & _ & H).
  destruct (H X1 X2) as (out & E & V). clear H.
  destruct (C66_temp exact_point loose 500 None 3 0.1 1 1 1e-5 g _ Hg ltac:(rewrite T; lra) ltac:(lra) F) as (_ & _ & H).
  destruct (H X1 X2) as (out' & E' & V'). clear H.
  exists out, out'. split; [exact Hg|]. split; [exact E|].
  assert (Rd : forall x, exists e, read_at x e).
  { intros x. destruct (Rle_lt_dec 21 x); [exists 20.79; constructor; assumption|]. destruct (Rle_lt_dec x 2); [exists 2.02; constructor; assumption|].
    exists x; constructor; lra. }
  destruct (Rd (ln (energy 1 1 1e-5 1 1000))) as (e & He).
  inversion V as [|a f1 l1 o1 V1 V2]; subst. inversion V2 as [|a2 f2 l2 o2 V3 V4]; subst.
  inversion V' as [|a3 f3 l3 o3 V5 V6]; subst. inversion V6 as [|a4 f4 l4 o4 V7 V8]; subst. cbn [fst snd] in *.
  destruct (V3 e He) as [_ Q]. destruct (V7 e He) as [_ Q']. rewrite (Q ltac:(lra)) in *. rewrite (Q' ltac:(lra)) in *. split; [reflexivity|]. split; [exact E'|reflexivity].
Qed.

(** The plots of neutral hydrogen. *)
From Coq Require Import Reals List Bool Arith Lia Lra.
From Verif Require Import RatesModel RatesSpec RatesProofs IoniseSpec IoniseProofs IoniseProofs2.
From Verif Require Import NetplotModel NetplotSpec NetplotProofs2 NetplotProofs3.
From Verif Require TempdensSpec TempdensProofs2.
Import ListNotations.
Local Open Scope R_scope.

Section plots.
Variables (a b c o : R) (mi : nat).
Let n := c92_network a b c o true.
Let SH : shipped (recomb n) := or_introl eq_refl.
Let PF : 0 < photo_factor n.
Proof. cbn. lra. Qed.
Let SS : selfshield n = false := eq_refl.

Lemma C121_simpleplot_aux : forall pts, simpleplot a b c o mi = Value pts -> length pts = (100 * 100)%nat /\
  forall i j, (i < 100)%nat -> (j < 100)%nat -> exists v ms s m t ms' s' f,
    nth_error pts (100 * j + i) = Some (axis_density i, s / 1e4, v) /\
    settled n 1e-7 middle_density (axis_energy j) ms s /\ settled n 1e-7 (axis_density i) (axis_energy j) m t /\
    settled n 1e-7 middle_density (axis_energy j) ms' s' /\ 0 < f <= 1 /\
    v * (cen_alphaHp s' * (0.76 * axis_density i) * (1 + 2 * (0.24 / (4 * 0.76)))) = f * Rpower 10 a /\
    (1e-40 < m / (0.76 * axis_density i) -> hydrogen_at n m t f (1 - f) /\ v * cen_alphaHp s' <= cen_alphaHp t /\ (s' <= t -> v <= 1)).
Proof.
  intros pts E. unfold simpleplot in E.
  destruct (plot_points a b c o mi _ pts (fun d u z => forall k x y r, nth_error d k = Some x -> nth_error u k = Some y -> nth_error z k = Some r ->
    exists med m t m' s f, TempdensSpec.is_median d med /\ settled n 1e-7 x y m t /\ settled n 1e-7 med y m' s /\
    0 < f <= 1 /\ r * (alphaHp (recomb n) s * (0.76 * x) * (1 + 2 * (0.24 / (4 * 0.76)))) = f * Rpower 10 (lg_gH0 n) /\
    (1e-40 < m / (0.76 * x) -> hydrogen_at n m t f (1 - f) /\
       r * photo_factor n * alphaHp (recomb n) s <= alphaHp (recomb n) t /\
       (s <= t -> within (recomb n) t -> r * photo_factor n <= 1)))
    (fun d u z Z L D U => C121_simple_aux n mi SH PF SS d u L D U z Z) E) as (LEN & d & u & z & P & Q).
  split; [exact LEN|]. intros i j I J. destruct (Q i j I J) as (N1 & N2 & ms & s & v & N3 & N4 & ST & MED).
  destruct (P _ _ _ _ N1 N2 N3) as (med & m & t & ms' & s' & f & MED' & ST2 & ST3 & F & EQ & H).
  pose proof (TempdensProofs2.is_median_unique _ _ _ MED MED') as EM. rewrite <- EM in ST3.
  exists v, ms, s, m, t, ms', s', f. repeat (split; [assumption|]). intros X. destruct (H X) as (H1 & H2 & H3). split; [exact H1|].
  change (photo_factor n) with 1 in H2, H3. rewrite Rmult_1_r in H2, H3. split; [exact H2|]. intros S'. apply H3; [exact S'|left; reflexivity].
Qed.

Lemma C122_hplot_aux : forall pts, hfracplot a b c o mi = Value pts -> length pts = (100 * 100)%nat /\
  forall i j, (i < 100)%nat -> (j < 100)%nat -> exists v ms s m t,
    nth_error pts (100 * j + i) = Some (axis_density i, s / 1e4, v) /\
    settled n 1e-7 middle_density (axis_energy j) ms s /\ settled n 1e-7 (axis_density i) (axis_energy j) m t /\
    (1e-40 < m / (0.76 * axis_density i) -> forall f g, hydrogen_at n m t f g -> v = f /\ 0 < g < 1 /\ v < f / g).
Proof.
  intros pts E. unfold hfracplot in E.
  destruct (plot_points a b c o mi _ pts (fun d u z => forall k x y r, nth_error d k = Some x -> nth_error u k = Some y -> nth_error z k = Some r ->
    exists m t, settled n 1e-7 x y m t /\
    (1e-40 < m / (0.76 * x) -> forall a b, hydrogen_at n m t a b -> r = a /\ 0 < b < 1 /\ r < a / b /\ r * (1 + a / b) = a / b))
    (fun d u z Z L D U => C122_hydrogen_aux n mi d u z SH PF SS L D U Z) E) as (LEN & d & u & z & P & Q).
  split; [exact LEN|]. intros i j I J. destruct (Q i j I J) as (N1 & N2 & ms & s & v & N3 & N4 & ST & MED).
  destruct (P _ _ _ _ N1 N2 N3) as (m & t & ST2 & H). exists v, ms, s, m, t. repeat (split; [assumption|]).
  intros X f g HB. destruct (H X f g HB) as (A1 & A2 & A3 & _). auto.
Qed.

Lemma C121_collisplot_aux : forall pts, collisplot a b c o mi = Value pts -> length pts = (100 * 100)%nat /\
  forall i j, (i < 100)%nat -> (j < 100)%nat -> exists v ms s m t m' t' f f',
    nth_error pts (100 * j + i) = Some (axis_density i, s / 1e4, v) /\
    settled n 1e-7 middle_density (axis_energy j) ms s /\ settled (colliding n true) 1e-7 (axis_density i) (axis_energy j) m t /\
    settled (colliding n false) 1e-7 (axis_density i) (axis_energy j) m' t' /\ 0 < f <= 1 /\ 0 < f' <= 1 /\ v = f / f' /\
    (1e-40 < m / (0.76 * axis_density i) -> hydrogen_at (colliding n true) m t f (1 - f)) /\
    (1e-40 < m' / (0.76 * axis_density i) -> hydrogen_at (colliding n false) m' t' f' (1 - f')).
Proof.
  intros pts E. unfold collisplot in E.
  destruct (plot_points a b c o mi _ pts (fun d u z => forall k x y r, nth_error d k = Some x -> nth_error u k = Some y -> nth_error z k = Some r ->
    exists m t m' t' f f', settled (colliding n true) 1e-7 x y m t /\ settled (colliding n false) 1e-7 x y m' t' /\
    0 < f <= 1 /\ 0 < f' <= 1 /\ r = f / f' /\
    (1e-40 < m / (0.76 * x) -> hydrogen_at (colliding n true) m t f (1 - f)) /\
    (1e-40 < m' / (0.76 * x) -> hydrogen_at (colliding n false) m' t' f' (1 - f')))
    (fun d u z Z L D U => C121_collis_aux n mi d u z SH PF SS L D U Z) E) as (LEN & d & u & z & P & Q).
  split; [exact LEN|]. intros i j I J. destruct (Q i j I J) as (N1 & N2 & ms & s & v & N3 & N4 & ST & MED).
  destruct (P _ _ _ _ N1 N2 N3) as (m & t & m' & t' & f & f' & H). exists v, ms, s, m, t, m', t', f, f'.
  split; [exact N4|]. split; [exact ST|]. exact H.
Qed.
End plots.

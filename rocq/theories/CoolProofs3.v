(** What is lost in collisions of electrons with each species. *)
From Coq Require Import Reals List Lra.
From Verif Require Import RatesModel CoolModel CoolSpec CoolProofs.
Import ListNotations.
Local Open Scope R_scope.

Lemma t5_sqrt : forall c t, tables c -> 0 < t -> t5 c t = 1 + sqrt (t / c_t5_corr c).
Proof.
  intros c t H Ht. unfold t5. f_equal. replace 0.5 with (/ 2) by lra. apply Rpower_sqrt.
  assert (P : 0 < c_t5_corr c) by (destruct H as [-> | [-> | ->]]; cbn [c_t5_corr kwh sherwood nyx]; lra).
  apply Rmult_lt_0_compat; [exact Ht|]. apply Rinv_0_lt_compat, P.
Qed.

Lemma C65_collisions_aux : forall c tc t, (c = kwh /\ tc = 1e5) \/ (c = sherwood /\ tc = 5e7) \/ (c = nyx /\ tc = 5e7) -> 0 < t ->
  (c <> nyx -> collisional_H0 c t = excitation 7.5e-19 0 118348 tc t + 13.5984 * 1.60218e-12 * GammaeH0 (c_recomb c) t) /\
  collisional_He0 c t = excitation 9.1e-27 (-0.1687) 473638 tc t + 24.5874 * 1.60218e-12 * GammaeHe0 (c_recomb c) t /\
  collisional_HeP c t = excitation 5.54e-17 (-0.397) 473638 tc t + 54.417760 * 1.60218e-12 * GammaeHep (c_recomb c) t.
Proof.
  intros c tc t H Ht. assert (T : tables c) by (unfold tables; tauto). pose proof (t5_sqrt c t T Ht) as E.
  assert (C : c_t5_corr c = tc) by (destruct H as [(-> & ->) | [(-> & ->) | (-> & ->)]]; reflexivity).
  rewrite C in E. unfold collisional_H0, collisional_He0, collisional_HeP, excite_H0, excite_He0, excite_HeP, ionize_H0, ionize_He0, ionize_HeP.
  unfold excitation, eV_in_ergs. rewrite E. split; [|split].
  - intros N. assert (X : c_nyx c = false) by (destruct H as [(-> & _) | [(-> & _) | (-> & _)]]; [reflexivity|reflexivity|congruence]).
    rewrite X. rewrite Rpower_O by exact Ht. rewrite Rmult_1_r. replace (-118348.0) with (- (118348)) by lra. reflexivity.
  - replace (-473638) with (- (473638)) by lra. reflexivity.
  - replace (-473638) with (- (473638)) by lra. reflexivity.
Qed.

Lemma C65_excitation_aux :
  1.38064852e-16 * 118348 < 13.5984 * 1.60218e-12 /\ 1.38064852e-16 * 473638 < 54.417760 * 1.60218e-12 /\
  24.5874 * 1.60218e-12 < 1.38064852e-16 * 473638 /\
  forall t, 0 < t -> excite_He0 kwh t = 9.1e-27 / 5.54e-17 * Rpower t (0.397 - 0.1687) * excite_HeP kwh t.
Proof.
  split; [lra|]. split; [lra|]. split; [lra|]. intros t Ht. unfold excite_He0, excite_HeP.
  assert (E : Rpower t (-0.1687) = Rpower t (0.397 - 0.1687) * Rpower t (-0.397)).
  { rewrite <- Rpower_plus. f_equal. lra. }
  rewrite E. assert (P : t5 kwh t <> 0).
  { rewrite t5_sqrt; [|left; reflexivity|exact Ht]. pose proof (sqrt_pos (t / c_t5_corr kwh)). lra. }
  generalize dependent (t5 kwh t). intros q Q. set (x := Rpower t (0.397 - 0.1687)). set (y := Rpower t (-0.397)). set (z := exp (-473638 / t)).
  clearbody x y z. assert (B : 5.54e-17 <> 0) by (apply Rgt_not_eq; lra).
  generalize dependent (5.54e-17). generalize (9.1e-27). intros a b B. field. split; assumption.
Qed.

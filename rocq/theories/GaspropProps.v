(** Theorems about the gas object (C82). *)
From Coq Require Import Ascii String List Bool Reals Lra Lia.
From Verif Require Import QuantModel NeutralModel NeutralProps GaspropModel GaspropSpec GaspropProofs.
Import ListNotations.
Local Open Scope R_scope.

(** The densities of the gas object are physical densities in proton masses per cubic centimetre, whatever units the snapshot
    is written in. *)
Theorem C82_density : forall u h z ds rhos, good_units u -> 0 < h -> -1 < z -> Forall2 (stored u h z) ds rhos ->
  get_code_rhoH u h z ds = map (fun rho => rho / 1.67262178e-24) rhos.
Proof. exact C82_density_aux. Qed.
Print Assumptions C82_density.

(** Spectra hands redshift, Hubble parameter and units of the snapshot to the gas object; RateNetworkSpectra replaces the Hubble
    parameter and the baryon fraction by its own arguments. *)
Theorem C82_arguments : forall red h u sf,
  init false (gprop_args red h u sf None) = Some (mkGasprop red h 0.17 u sf) /\
  (forall pf ss tf gf h' fb tc, init true (gprop_args red h u sf (ratenetwork_args pf ss tf gf h' fb tc)) = Some (mkGasprop red h' fb u sf)).
Proof. exact C82_init_aux. Qed.
Print Assumptions C82_arguments.

(** So with its default of 0.71 all densities of RateNetworkSpectra are wrong by (0.71 / h)^2. *)
Theorem C82_ratenetwork_refuted : forall pf ss tf gf fb tc red h u sf ds rhos, good_units u -> 0 < h -> -1 < red ->
  Forall2 (stored u h red) ds rhos ->
  exists g, init true (gprop_args red h u sf (ratenetwork_args pf ss tf gf 0.71 fb tc)) = Some g /\
    get_code_rhoH (g_units g) (g_hubble g) (g_red g) ds = map (fun rho => (0.71 / h) ^ 2 * (rho / 1.67262178e-24)) rhos.
Proof. exact C82_ratenetwork_aux. Qed.
Print Assumptions C82_ratenetwork_refuted.

(** Gas is taken for star forming if its comoving density in code units times (1+z)^3 exceeds a constant, about 8.5e-4, the same
    for all units, Hubble parameters and redshifts. *)
Theorem C82_threshold : exists K, 8.4e-4 < K < 8.6e-4 /\
  forall g s densities codes i d c, good_units (g_units g) -> 0 < g_hubble g -> gas_of g = Some s -> g_sf g = true ->
    length densities = length codes -> nth_error densities i = Some d -> nth_error codes i = Some c ->
    exists f, nth_error (get_reproc_HI s densities codes) i = Some f /\
      (d * (1 + g_red g) ^ 3 <= K -> f = c) /\
      (K < d * (1 + g_red g) ^ 3 -> forall n, nth_error (get_code_rhoH (g_units g) (g_hubble g) (g_red g) densities) i = Some n ->
         (8 < g_red g -> f = 1) /\
         (g_red g <= 8 -> exists b, uvb_of (g_red g) (g_fbar g) = Some (Some b) /\ f = neutral_fraction b n 1e4)).
Proof. exact C82_threshold_aux. Qed.
Print Assumptions C82_threshold.

(** Hence the threshold is not a physical one: any gas is star forming in a snapshot written in some units and not in others. *)
Theorem C82_units_refuted : forall h z rho, 0 < h -> 0 <= z -> 0 < rho ->
  exists u u' d d', good_units u /\ good_units u' /\ stored u h z d rho /\ stored u' h z d' rho /\
    forall fbar s s', gas_of (mkGasprop z h fbar u true) = Some s -> gas_of (mkGasprop z h fbar u' true) = Some s' ->
      forall c, get_reproc_HI s [d] [c] = [c] /\
        (8 < z -> get_reproc_HI s' [d'] [c] = [1]) /\
        (z <= 8 -> exists b, uvb_of z fbar = Some (Some b) /\ get_reproc_HI s' [d'] [c] = [neutral_fraction b (rho / 1.67262178e-24) 1e4]).
Proof. exact C82_units_aux. Qed.
Print Assumptions C82_units_refuted.

(** In a snapshot written in Mpc/h and 10^10 solar masses/h, where the mean baryon density is about 1.3, gas of a thousandth of
    that is star forming at every redshift. *)
Theorem C82_mpc_refuted : forall h z fbar s d c, 0 < h -> 0 <= z -> 1e-3 <= d ->
  gas_of (mkGasprop z h fbar (mkUnits 3.085678e24 1.98892e43 1e5) true) = Some s ->
  (8 < z -> get_reproc_HI s [d] [c] = [1]) /\
  (z <= 8 -> exists b, uvb_of z fbar = Some (Some b) /\
     get_reproc_HI s [d] [c] = [neutral_fraction b (d * density_conv (mkUnits 3.085678e24 1.98892e43 1e5) h z) 1e4]).
Proof. exact C82_mpc_aux. Qed.
Print Assumptions C82_mpc_refuted.

Example C82_example : good_units default_units /\ (exists d, stored default_units 0.7 3 d 1e-24 /\ 0 < d) /\
  (exists s, gas_of (mkGasprop 3 0.7 0.17 default_units true) = Some s) /\
  (exists s, gas_of (mkGasprop 3 0.7 0.17 (mkUnits 3.085678e24 1.98892e43 1e5) true) = Some s).
Proof.
  assert (U : good_units default_units) by (unfold good_units, default_units; cbn [u_length u_mass u_vel]; lra).
  split; [exact U|]. split; [|].
  - eexists. split; [apply (stored_exists default_units 0.7 3 1e-24 U); lra|].
    destruct U as [L [M _]]. set (l := u_length default_units) in *. set (m := u_mass default_units) in *. clearbody l m.
    assert (0 < l ^ 3) by (apply pow_lt, L). 
    apply Rdiv_lt_0_compat; [|apply pow_lt; lra]. apply Rdiv_lt_0_compat; [|apply pow_lt; lra].
    apply Rdiv_lt_0_compat; [|exact M]. apply Rmult_lt_0_compat; lra.
  - destruct (C39_tables 3 0.17) as [_ [_ T]]. destruct (T ltac:(lra)) as [b [B _]].
    unfold gas_of. cbn [g_red g_fbar]. rewrite B. split; eexists; reflexivity.
Qed.

(** C56 (equivalent widths), C58, C59, C60: path lengths, the matter density in absorbers from the column
    density function, and the column density function of fitted absorbers. *)
From Coq Require Import ZArith List Reals Lra Lia.
From Verif Require Import AbsorptionSpec FluxSpec CddfModel CddfSpec ObserverModel OmegaModel OmegaSpec OmegaProofs.
Import ListNotations.
Local Open Scope R_scope.

(** C56: sightlines whose equivalent width is above the threshold, per sightline examined and path length. *)
Theorem C56_eq_width : forall S dvbin line discarded thresh tau, proper S -> 0 <= s_omegam S <= 1 -> tau <> [] ->
  exists m, number (fun w => thresh < w) (equivalent_width dvbin (u_light S) line tau) m /\
    line_density_eq_w S dvbin line discarded thresh tau =
    Some (INR m / (INR (length tau + discarded) * box_path S true)).
Proof. intros S dvbin line discarded thresh tau HS. rewrite <- path_is by apply HS. revert HS. apply C56_eq_width_aux. Qed.
Print Assumptions C56_eq_width.

(** omega_abs: the mass in sightlines strictly between the thresholds per proper volume over the critical density. *)
Theorem C56_omega : forall S mass discarded lo hi rho, proper S -> rho <> [] ->
  omega_direct S mass discarded lo hi rho =
  Some (mass * (rsum (filter (fun x => if Rlt_dec lo x then if Rlt_dec x hi then true else false else false) (map rsum rho)) /
               INR (length rho + discarded)) / (1 + s_red S) ^ 2 / (s_box S * u_length S / s_hubble S) / critical S).
Proof. exact C56_omega_aux. Qed.
Print Assumptions C56_omega.

(** C58: both path lengths are additive in the length and positive; c dz = H(z) dl, and dX/dz = (1+z)^2 H0/H(z). *)
Theorem C58_path : forall h light len z om a b, 0 < h -> 0 < light -> 0 < len -> 0 <= z -> 0 <= om <= 1 ->
  let X := fun l => absorption_distance h light len l z in
  let Dz := fun l => redshift_distance h light len l z om in
  X (a + b) = X a + X b /\ Dz (a + b) = Dz a + Dz b /\
  (0 < a -> 0 < X a /\ 0 < Dz a) /\
  X a * (hubble_rate h z om / hubble_rate h 0 om) = (1 + z) ^ 2 * Dz a /\
  Dz a * light = hubble_rate h z om * (a * len).
Proof. exact C58_path_aux. Qed.
Print Assumptions C58_path.

Theorem C58_hubble : forall h om z z', 0 < h -> 0 < om <= 1 -> 0 <= z -> z < z' ->
  hubble_rate h 0 om = h /\ h <= hubble_rate h z om /\ hubble_rate h z om < hubble_rate h z' om.
Proof. exact C58_hubble_aux. Qed.
Print Assumptions C58_hubble.

(** The column density function per unit absorption distance and per unit redshift count the same absorbers. *)
Theorem C58_same_counts : forall S minN maxN dlogN discarded line close dvbin rho i,
  proper S -> 0 <= s_omegam S <= 1 ->
  fst (cddf S minN maxN dlogN discarded line close dvbin true rho) = fst (cddf S minN maxN dlogN discarded line close dvbin false rho) /\
  nth i (snd (cddf S minN maxN dlogN discarded line close dvbin true rho)) 0 * box_path S true =
  nth i (snd (cddf S minN maxN dlogN discarded line close dvbin false rho)) 0 * box_path S false.
Proof. intros S minN maxN dlogN discarded line close dvbin rho i HS. rewrite <- !path_is by apply HS. revert HS. apply C58_same_counts_aux. Qed.
Print Assumptions C58_same_counts.

(** C59: every sightline whose column density falls into one of the bins between the thresholds counts for
    its share of the column density in the middle of the bin, every other one for nothing; path lengths,
    Hubble constant and speed of light cancel, so that the result is the mass per proper volume over the
    critical density, as for omega_abs, which counts every sightline with its own column density. *)
Theorem C59_absorbers : forall S mass discarded thresh up close dvbin rho,
  proper S -> 0 < thresh -> thresh < up -> rho <> [] ->
  exists n ws, dla_edge thresh n < up <= dla_edge thresh (Datatypes.S n) /\
    Forall2 (counts_for thresh n) (map rsum rho) ws /\
    omega_abs_cddf S mass discarded thresh up close dvbin rho =
    mass * (rsum ws / INR (length rho + discarded)) / (1 + s_red S) ^ 2 / (s_box S * u_length S / s_hubble S) /
      critical S.
Proof. exact C59_absorbers_aux. Qed.
Print Assumptions C59_absorbers.

(** When all sightlines between the thresholds fall into inner bins, the two estimates agree to within -15%
    and +37%. *)
Theorem C59_within : forall S mass discarded thresh up close dvbin rho n,
  proper S -> 0 <= mass -> 0 < thresh -> rho <> [] -> (2 <= n)%nat ->
  dla_edge thresh n < up <= dla_edge thresh (Datatypes.S n) ->
  (forall row, In row rho -> thresh <= rsum row < up ->
     dla_edge thresh 1 <= rsum row < dla_edge thresh (n - 1)) ->
  exists om, omega_direct S mass discarded thresh up rho = Some om /\
    0.85 * om <= omega_abs_cddf S mass discarded thresh up close dvbin rho <= 1.37 * om.
Proof. exact C59_within_aux. Qed.
Print Assumptions C59_within.

(** They are not the same: an absorber in the very middle of an inner bin counts for more than 5% too much. *)
Theorem C59_same_refuted : forall S mass thresh up close dvbin n i,
  proper S -> 0 < mass -> 0 < thresh -> dla_edge thresh n < up <= dla_edge thresh (Datatypes.S n) ->
  (0 < i)%nat -> (i < n - 1)%nat ->
  exists om, omega_direct S mass 0 thresh up [[dla_centre thresh i]] = Some om /\ 0 < om /\
    1.05 * om < omega_abs_cddf S mass 0 thresh up close dvbin [[dla_centre thresh i]].
Proof. exact C59_centre_aux. Qed.
Print Assumptions C59_same_refuted.

(** With thresholds within two fifths of a decade the result is 0 whatever the absorbers. *)
Theorem C59_narrow_refuted : forall S mass discarded thresh up close dvbin rho, proper S -> 0 < thresh -> thresh < up -> rho <> [] ->
  up <= thresh * Rpower 10 (2 / 5) -> omega_abs_cddf S mass discarded thresh up close dvbin rho = 0.
Proof. exact C59_narrow_aux. Qed.
Print Assumptions C59_narrow_refuted.

(** C60: f in bin i, times the bin width and the path examined, is the number of fitted systems of the
    examined spectra in bin i: all spectra, or the first nspectra of them with the same share of the
    discarded ones. *)
Theorem C60_counts : forall S fit minN maxN dlogN discarded dX nspectra tau used,
  proper S -> 0 <= s_omegam S <= 1 -> 0 < dlogN -> minN < maxN -> tau <> [] ->
  ((nspectra <= 0)%Z /\ used = tau \/
   (0 < nspectra <= Z.of_nat (length tau))%Z /\ exists rest, tau = used ++ rest /\ Z.of_nat (length used) = nspectra) ->
  exists n center f,
    column_density_from_voigt S fit minN maxN dlogN discarded dX nspectra tau = Some (center, f) /\
    minN + INR n * dlogN < maxN <= minN + INR (Datatypes.S n) * dlogN /\ length center = n /\ length f = n /\
    forall i, (i < n)%nat ->
      nth i center 0 = (bin_edge minN dlogN i + bin_edge minN dlogN (Datatypes.S i)) / 2 /\
      exists m, number (falls_into minN dlogN n i) (concat (map fit used)) m /\
        nth i f 0 * (bin_edge minN dlogN (Datatypes.S i) - bin_edge minN dlogN i) *
          (box_path S dX * (INR (length used) * (1 + INR discarded / INR (length tau)))) = INR m.
Proof.
  intros S fit minN maxN dlogN discarded dX nspectra tau used HS. rewrite <- path_is by apply HS. revert HS. apply C60_counts_aux.
Qed.
Print Assumptions C60_counts.

(** Asking for more spectra than there are lowers the function by the ratio of the two numbers. *)
Theorem C60_too_many_refuted : forall S fit minN maxN dlogN discarded dX nspectra tau, proper S -> 0 <= s_omegam S <= 1 -> tau <> [] ->
  (Z.of_nat (length tau) < nspectra)%Z ->
  exists center f g,
    column_density_from_voigt S fit minN maxN dlogN discarded dX nspectra tau = Some (center, f) /\
    column_density_from_voigt S fit minN maxN dlogN discarded dX (-1) tau = Some (center, g) /\
    forall i, nth i g 0 = nth i f 0 * (IZR nspectra / INR (length tau)).
Proof. exact C60_too_many_aux. Qed.
Print Assumptions C60_too_many_refuted.

(** Without sightlines the call raises. *)
Theorem C60_no_spectra_refuted : forall S fit minN maxN dlogN discarded dX nspectra,
  column_density_from_voigt S fit minN maxN dlogN discarded dX nspectra [] = None.
Proof. exact C60_none_aux. Qed.
Print Assumptions C60_no_spectra_refuted.

(** ** Concrete cases *)

Definition example_setup := mkSetup 3 2 1 1 10 2 (7 / 10) (3 / 10).

Example proper_example : proper example_setup /\ 0 <= s_omegam example_setup <= 1.
Proof. unfold proper, example_setup. cbn. lra. Qed.

Lemma edge_at : forall t k, t * Rpower 10 (INR (5 * k) / 5) = t * 10 ^ k.
Proof.
  intros t k. rewrite mult_INR. replace (INR 5 * INR k / 5) with (INR k) by (simpl (INR 5); field).
  rewrite Rpower_pow by lra. reflexivity.
Qed.

(** Two decades: the default thresholds 10^20.3 and 10^23.3 scaled down; nine bins, the last edge below 100. *)
Lemma edge_range : forall t, 0 < t -> dla_edge t 9 < t * 100 <= dla_edge t 10.
Proof.
  intros t Ht. unfold dla_edge. change 10%nat with (5 * 2)%nat. rewrite edge_at. split; [|lra].
  apply Rmult_lt_compat_l; [assumption|]. replace 100 with (Rpower 10 (INR (5 * 2) / 5)).
  - apply Rpower_lt; [lra|]. simpl. lra.
  - replace (INR (5 * 2) / 5) with (INR 2) by (simpl; lra). rewrite Rpower_pow by lra. lra.
Qed.

(** A sightline of column density 10 between the thresholds 1 and 100, another one below. *)
Example C59_example : exists om, omega_direct example_setup 1 0 1 100 [[4; 6]; [0; 0]] = Some om /\
  0.85 * om <= omega_abs_cddf example_setup 1 0 1 100 50 1 [[4; 6]; [0; 0]] <= 1.37 * om.
Proof.
  apply (C59_within _ _ _ _ _ _ _ _ 9); [apply proper_example|lra|lra|discriminate|lia| |].
  - pose proof (edge_range 1 ltac:(lra)). lra.
  - intros row [<-|[<-|[]]]; cbn [rsum fold_right]; intros H; [|lra].
    unfold dla_edge. replace (4 + (6 + 0)) with (Rpower 10 1) by (rewrite Rpower_1; lra). split.
    + rewrite Rmult_1_l. apply Rle_Rpower; simpl; lra.
    + rewrite Rmult_1_l. apply Rpower_lt; [lra|]. simpl. lra.
Qed.

Example C59_refuted_example : exists om, omega_direct example_setup 1 0 1 100 [[dla_centre 1 4]] = Some om /\ 0 < om /\
  1.05 * om < omega_abs_cddf example_setup 1 0 1 100 50 1 [[dla_centre 1 4]].
Proof.
  apply (C59_same_refuted _ _ _ _ _ _ 9); [apply proper_example|lra|lra| |lia|lia].
  pose proof (edge_range 1 ltac:(lra)). lra.
Qed.

(** One of two spectra examined, its fit giving two systems. *)
Example C60_example : exists n center f,
  column_density_from_voigt example_setup (fun t => map (fun x => 2 * x) t) 0 2 1 0 true 1 [[1; 3]; [5]] = Some (center, f) /\
  n = 1%nat /\ nth 0 f 0 * 9 * (box_path example_setup true * 1) = 2.
Proof.
  destruct proper_example as (P & Q).
  destruct (C60_counts example_setup (fun t => map (fun x => 2 * x) t) 0 2 1 0 true 1 [[1; 3]; [5]] [[1; 3]] P Q
    ltac:(lra) ltac:(lra) ltac:(discriminate)) as (n & center & f & E & Hn & Lc & Lf & H).
  { right. split; [cbn; lia|]. exists [[5]]. split; reflexivity. }
  assert (n = 1%nat) as ->.
  { rewrite !S_INR in Hn. destruct n as [|[|n]]; [cbn in Hn; lra|reflexivity|exfalso].
    rewrite !S_INR in Hn. pose proof (pos_INR n). lra. }
  exists 1%nat, center, f. split; [exact E|]. split; [reflexivity|].
  destruct (H 0%nat ltac:(lia)) as (_ & m & Hm & Ef).
  assert (B0 : bin_edge 0 1 0 = 1) by (unfold bin_edge; cbn [INR]; rewrite Rmult_0_l, Rplus_0_l; apply Rpower_O; lra).
  assert (B1 : bin_edge 0 1 1 = 10) by (unfold bin_edge; cbn [INR]; rewrite Rmult_1_l, Rplus_0_l; apply Rpower_1; lra).
  rewrite B0, B1 in Ef. cbn [map concat app] in Hm.
  assert (m = 2%nat).
  { inversion Hm as [|x l k Hx Hk|x l k Hx Hk]; subst.
    - inversion Hk as [|y l' k' Hy Hk'|y l' k' Hy Hk']; subst.
      + inversion Hk'; subst. reflexivity.
      + exfalso. apply Hy. unfold falls_into. rewrite B0, B1. lra.
    - exfalso. apply Hx. unfold falls_into. rewrite B0, B1. lra. }
  subst m. cbn [length INR] in Ef. lra.
Qed.

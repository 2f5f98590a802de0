(** C67: the velocity pixels of a Spectra object. *)
From Coq Require Import Reals ZArith Lra Lia Bool.
From Verif Require Import SetupModel SetupSpec SetupProofs.
Local Open Scope R_scope.

(** The Hubble rate is the one given, or that of a flat universe; the velocity across the box is the Hubble flow across
    its physical size in the units of the snapshot, or kpc if it has none: the units argument does not matter. *)
Theorem C67_scale : forall s units res nbins ext o, sane s -> from_snapshot s units res nbins ext = Done o ->
  s_red o = 1 / atime s - 1 /\
  match ext with
  | Some v => (v <> 0 -> s_Hz o = v) /\ (v = 0 -> friedmann (hubble s) (omegam s) (omegal s) (atime s) (s_Hz o))
  | None => friedmann (hubble s) (omegam s) (omegal s) (atime s) (s_Hz o)
  end /\
  match unit_length s with
  | Some u => hubble_flow (box s) u (atime s) (hubble s) (s_Hz o) (s_vmax o)
  | None => hubble_flow (box s) 3.085678e21 (atime s) (hubble s) (s_Hz o) (s_vmax o)
  end.
Proof. exact C67_scale_aux. Qed.
Print Assumptions C67_scale.

(** Though documented to override the units of the snapshot, the units argument does not change the object. *)
Theorem C67_override_refuted : forall s u u' res nbins ext, from_snapshot s u res nbins ext = from_snapshot s u' res nbins ext.
Proof. reflexivity. Qed.
Print Assumptions C67_override_refuted.

(** The pixels tile the box, are never narrower than asked, and are as many as that allows: wider by less than the n-th
    part of the width asked.  A box narrower than the width asked has no pixel at all. *)
Theorem C67_grid : forall s units r ext o,
  sane s -> 0 < r -> match ext with Some v => 0 <= v | None => True end ->
  from_snapshot s units (Some r) None ext = Done o ->
  finest (s_nbins o) r (s_vmax o) /\
  (r <= s_vmax o ->
   exists d, s_dvbin o = Some d /\ tiles (s_nbins o) d (s_vmax o) /\ r <= d /\ IZR (s_nbins o) * (d - r) < r) /\
  (s_vmax o < r -> s_nbins o = 0%Z /\ s_dvbin o = None).
Proof. exact C67_grid_aux. Qed.
Print Assumptions C67_grid.

(** With a number of pixels and no width, exactly that many tile the box. *)
Theorem C67_nbins : forall s units n ext o, (1 <= n)%Z -> from_snapshot s units None (Some n) ext = Done o ->
  s_nbins o = n /\ exists d, s_dvbin o = Some d /\ tiles n d (s_vmax o).
Proof. exact C67_nbins_aux. Qed.
Print Assumptions C67_nbins.

(** A number of pixels beside a width (and res is 1 km/s unless set to None) is never accepted: AttributeError. *)
Theorem C67_both_refuted : forall s units r n ext, from_snapshot s units (Some r) (Some n) ext = NoNbins.
Proof. exact C67_both_aux. Qed.
Print Assumptions C67_both_refuted.

(** Saved and loaded with the same arguments, in the units of the snapshot, the object is the same: always if no width is
    asked, and for the width it was made with if there are a hundred pixels. *)
Theorem C67_reload : forall s us res nb ext o ul, sane s -> from_snapshot s us res nb ext = Done o ->
  match ul, unit_length s with
  | Some u, Some w => u = w | None, None => True
  | Some u, None | None, Some u => u = 3.085678e21 end ->
  from_file (save o) ul None ext = Done o /\
  (forall r, res = Some r -> 0 < r -> match ext with Some v => 0 <= v | None => True end ->
     100 * r <= s_vmax o -> from_file (save o) ul (Some r) ext = Done o).
Proof. exact C67_reload_aux. Qed.
Print Assumptions C67_reload.

(** With fewer pixels the same width that made the file is refused when it is loaded. *)
Theorem C67_reload_refuted : exists s r ext o, sane s /\ 0 < r /\
  from_snapshot s None (Some r) None ext = Done o /\ from_file (save o) None (Some r) ext = PixelWidth.
Proof. exact C67_reload_refuted_aux. Qed.
Print Assumptions C67_reload_refuted.

(** A file that loads has the pixel width within 1% and the Hubble rate within 0.01% of those asked, if any. *)
Theorem C67_check : forall f ul res ext o, from_file f ul res ext = Done o ->
  s_nbins o = f_nbins f /\
  (forall r, res = Some r -> exists d, s_dvbin o = Some d /\ Rabs (d - r) <= 1e-8 + 1e-2 * Rabs r) /\
  (forall H, ext = Some H -> H <> 0 -> Rabs (s_Hz o - H) <= 1e-8 + 1e-4 * Rabs H) /\
  (forall H, f_Hz f = Some H -> s_Hz o = H).
Proof. exact C67_check_aux. Qed.
Print Assumptions C67_check.

(** The units are not saved: loaded with other units the same pixels silently span another velocity. *)
Theorem C67_units_refuted : forall s us res nb ext o u' w o', sane s -> 0 < u' ->
  from_snapshot s us res nb ext = Done o -> unit_length s = Some w ->
  from_file (save o) (Some u') None None = Done o' -> s_vmax o' = s_vmax o * (u' / w) /\ s_nbins o' = s_nbins o.
Proof. exact C67_units_aux. Qed.
Print Assumptions C67_units_refuted.

(** A 10 Mpc/h box at redshift 3, h = 1/2, in kpc: with H = 300 km/s/Mpc it spans 1500 km/s. *)
Definition snap3 : snapshot := Snapshot 10000 (1 / 4) (1 / 2) (3 / 10) (7 / 10) (Some 3.085678e21).

Example snap3_sane : sane snap3.
Proof. unfold sane, snap3. cbn [box atime hubble omegam omegal unit_length]. repeat split; lra. Qed.

Example snap3_vmax : vmax_of snap3 (Some 300) = 1500.
Proof.
  unfold vmax_of, Hz_of, given, velfac, rscale, get_units, snap3. cbn [box atime hubble unit_length].
  destruct (Req_EM_T 300 0); lra.
Qed.

Example snap3_grid : exists o d, from_snapshot snap3 None (Some 7) None (Some 300) = Done o /\ s_nbins o = 214%Z /\
  s_dvbin o = Some d /\ 214 * d = 1500 /\ from_file (save o) None (Some 7) (Some 300) = Done o.
Proof.
  assert (H : exists o, from_snapshot snap3 None (Some 7) None (Some 300) = Done o).
  { unfold from_snapshot. destruct (Req_EM_T 7 0); [lra|]. eexists. reflexivity. }
  destruct H as [o H].
  assert (V : s_vmax o = 1500).
  { rewrite (snapshot_fields _ _ _ _ _ _ H). cbn [s_vmax]. apply snap3_vmax. }
  destruct (C67_grid snap3 None 7 (Some 300) o snap3_sane ltac:(lra) ltac:(lra) H) as (F & G & _).
  rewrite V in *. destruct (G ltac:(lra)) as (d & D & [T1 T2] & _).
  assert (N : s_nbins o = 214%Z).
  { destruct F as [F1 F2]. assert (L : IZR (s_nbins o) < 215) by lra. apply lt_IZR in L.
    assert (K : (214 <= s_nbins o)%Z) by (apply F2; lra). lia. }
  exists o, d. rewrite N in *. repeat split; try assumption.
  apply (proj2 (C67_reload snap3 None (Some 7) None (Some 300) o None snap3_sane H eq_refl) 7 eq_refl); lra.
Qed.

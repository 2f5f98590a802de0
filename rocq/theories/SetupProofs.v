(** Lemmas for the pixel grid of a Spectra object. *)
From Coq Require Import Reals ZArith Lra Lia Bool.
From Verif Require Import SetupModel SetupSpec.
Local Open Scope R_scope.

Definition sane (s : snapshot) : Prop :=
  0 < box s /\ 0 < atime s /\ 0 < hubble s /\ 0 < omegam s /\ 0 <= omegal s /\
  match unit_length s with Some u => 0 < u | None => True end.

Lemma kpc_pos : 0 < kpc.
Proof. unfold kpc. lra. Qed.

Lemma units_pos : forall s, sane s -> 0 < get_units s.
Proof. intros s (_ & _ & _ & _ & _ & H). unfold get_units. destruct (unit_length s); [exact H|apply kpc_pos]. Qed.

Lemma flat_spec : forall h m l a, 0 < h -> 0 < m -> 0 <= l -> 0 < a -> friedmann h m l a (flat_Hz h m l a) /\ 0 < flat_Hz h m l a.
Proof.
  intros h m l a Hh Hm Hl Ha. unfold flat_Hz, friedmann.
  assert (P : 0 < m / a ^ 3 + l).
  { assert (0 < m / a ^ 3) by (apply Rdiv_lt_0_compat; [exact Hm|apply pow_lt; exact Ha]). lra. }
  assert (Q : 0 < sqrt (m / a ^ 3 + l)) by (apply sqrt_lt_R0; exact P).
  assert (T : 0 < 100 * h * sqrt (m / a ^ 3 + l)) by (apply Rmult_lt_0_compat; lra).
  split; [split|exact T]; [lra|].
  replace (m / (a * a * a) + l) with (m / a ^ 3 + l) by (simpl; f_equal; f_equal; ring).
  transitivity (100 * h * (100 * h) * (sqrt (m / a ^ 3 + l) * sqrt (m / a ^ 3 + l))); [ring|].
  rewrite sqrt_sqrt by lra. reflexivity.
Qed.

Lemma flow_spec : forall b u a h H, 0 < h -> hubble_flow b u a h H (b * velfac u a h H).
Proof.
  intros b u a h H Hh. exists (b * u * (a / h) / 3.085678e24). unfold velfac, rscale. split; field; lra.
Qed.

Definition Hz_of (s : snapshot) (ext : option R) : R :=
  match given ext with Some v => v | None => flat_Hz (hubble s) (omegam s) (omegal s) (atime s) end.
Definition vmax_of (s : snapshot) (ext : option R) : R := box s * velfac (get_units s) (atime s) (hubble s) (Hz_of s ext).

Lemma snapshot_fields : forall s u res nb ext o, from_snapshot s u res nb ext = Done o ->
  o = Spectra (box s) (1 / atime s - 1) (hubble s) (omegam s) (omegal s) (Hz_of s ext) (vmax_of s ext)
              (s_nbins o) (width (vmax_of s ext) (s_nbins o)).
Proof.
  intros s u res nb ext o H. unfold from_snapshot in H. fold (Hz_of s ext) in H. fold (vmax_of s ext) in H.
  destruct res as [r|], nb as [n|]; try discriminate.
  - destruct (Req_EM_T r 0); [discriminate|]. injection H as <-. reflexivity.
  - injection H as <-. reflexivity.
Qed.

Lemma ext_pos : forall s ext, sane s -> match ext with Some v => 0 <= v | None => True end -> 0 < Hz_of s ext.
Proof.
  intros s ext (B & A & H & M & L & _) E. unfold Hz_of, given.
  assert (F := proj2 (flat_spec _ _ _ _ H M L A)).
  destruct ext as [v|]; [|exact F]. destruct (Req_EM_T v 0); [exact F|lra].
Qed.

Lemma vmax_pos : forall s ext, sane s -> match ext with Some v => 0 <= v | None => True end -> 0 < vmax_of s ext.
Proof.
  intros s ext S0 E. assert (P := ext_pos s ext S0 E). assert (U := units_pos s S0).
  destruct S0 as (B & A & H & _). unfold vmax_of, velfac, rscale.
  apply Rmult_lt_0_compat; [exact B|]. apply Rdiv_lt_0_compat; [|lra]. apply Rmult_lt_0_compat; [|exact P].
  apply Rdiv_lt_0_compat; [|exact H]. apply Rmult_lt_0_compat; assumption.
Qed.

Lemma C67_scale_aux : forall s units res nbins ext o, sane s -> from_snapshot s units res nbins ext = Done o ->
  s_red o = 1 / atime s - 1 /\
  match ext with
  | Some v => (v <> 0 -> s_Hz o = v) /\ (v = 0 -> friedmann (hubble s) (omegam s) (omegal s) (atime s) (s_Hz o))
  | None => friedmann (hubble s) (omegam s) (omegal s) (atime s) (s_Hz o)
  end /\
  match unit_length s with
  | Some u => hubble_flow (box s) u (atime s) (hubble s) (s_Hz o) (s_vmax o)
  | None => hubble_flow (box s) 3.085678e21 (atime s) (hubble s) (s_Hz o) (s_vmax o)
  end.
Proof.
  intros s units res nbins ext o S0 E. assert (F := snapshot_fields _ _ _ _ _ _ E). rewrite F. cbn [s_red s_Hz s_vmax].
  destruct S0 as (B & A & H & M & L & U).
  split; [reflexivity|]. split.
  - assert (G := proj1 (flat_spec _ _ _ _ H M L A)). unfold Hz_of, given. destruct ext as [v|]; [|exact G].
    destruct (Req_EM_T v 0) as [e|e]; split; intro K; try contradiction; try reflexivity; exact G.
  - assert (G := flow_spec (box s) (get_units s) (atime s) (hubble s) (Hz_of s ext) H).
    unfold vmax_of. unfold get_units in *. destruct (unit_length s); exact G.
Qed.

Lemma trunc_spec : forall x r, 0 < r -> 0 <= x -> finest (trunc (x / r)) r x /\ x < (IZR (trunc (x / r)) + 1) * r.
Proof.
  intros x r Hr Hx. assert (Q : 0 <= x / r) by (apply Rmult_le_pos; [exact Hx|left; apply Rinv_0_lt_compat; exact Hr]).
  unfold trunc. destruct (Rle_dec 0 (x / r)) as [_|N]; [|contradiction].
  assert (B := base_Int_part (x / r)). destruct B as [B1 B2].
  assert (E : x / r * r = x) by (field; lra).
  assert (X : x < (IZR (Int_part (x / r)) + 1) * r) by (rewrite <- E at 1; apply Rmult_lt_compat_r; lra).
  split; [split|exact X].
  - rewrite <- E at 2. apply Rmult_le_compat_r; lra.
  - intros k K. assert (L : IZR k * r < (IZR (Int_part (x / r)) + 1) * r) by lra.
    apply Rmult_lt_reg_r in L; [|exact Hr]. rewrite <- plus_IZR in L. apply lt_IZR in L. lia.
Qed.

Lemma finest_pos : forall n r v, 0 < r -> finest n r v -> ((1 <= n)%Z <-> r <= v).
Proof.
  intros n r v Hr [A B]. split; intro H.
  - apply IZR_le in H. apply Rle_trans with (IZR n * r); [|exact A].
    assert (Q : 1 * r <= IZR n * r) by (apply Rmult_le_compat_r; lra). lra.
  - apply B. lra.
Qed.

Lemma C67_grid_aux : forall s units r ext o,
  sane s -> 0 < r -> match ext with Some v => 0 <= v | None => True end ->
  from_snapshot s units (Some r) None ext = Done o ->
  finest (s_nbins o) r (s_vmax o) /\
  (r <= s_vmax o ->
   exists d, s_dvbin o = Some d /\ tiles (s_nbins o) d (s_vmax o) /\ r <= d /\ IZR (s_nbins o) * (d - r) < r) /\
  (s_vmax o < r -> s_nbins o = 0%Z /\ s_dvbin o = None).
Proof.
  intros s units r ext o S0 Hr E H. unfold from_snapshot in H. fold (Hz_of s ext) in H. fold (vmax_of s ext) in H.
  destruct (Req_EM_T r 0); [lra|]. injection H as <-. cbn [s_nbins s_vmax s_dvbin].
  assert (P := vmax_pos s ext S0 E). set (v := vmax_of s ext) in *. clearbody v.
  destruct (trunc_spec v r Hr ltac:(lra)) as [F X]. set (k := trunc (v / r)) in *. clearbody k.
  split; [exact F|]. split.
  - intro L. assert (K : (1 <= k)%Z) by (apply (finest_pos k r v Hr F); exact L).
    assert (K' : 1 <= IZR k) by (apply IZR_le in K; exact K).
    exists (v / (1 * IZR k)). unfold width. destruct (Z.eq_dec k 0) as [e|_]; [lia|].
    assert (T : IZR k * (v / (1 * IZR k)) = v) by (field; lra).
    split; [reflexivity|]. split; [split; [exact K|exact T]|]. destruct F as [F1 _]. split.
    + apply Rmult_le_reg_l with (IZR k); lra.
    + rewrite Rmult_minus_distr_l, T. lra.
  - intro L. assert (Z0 : (k <= 0)%Z).
    { destruct (Z_le_gt_dec k 0) as [z|z]; [exact z|]. exfalso.
      assert (K : (1 <= k)%Z) by lia. apply (finest_pos k r v Hr F) in K. lra. }
    assert (Z1 : (0 <= k)%Z) by (apply (proj2 F); lra).
    assert (k = 0%Z) by lia. subst k. split; [reflexivity|]. reflexivity.
Qed.

Lemma C67_nbins_aux : forall s units n ext o, (1 <= n)%Z -> from_snapshot s units None (Some n) ext = Done o ->
  s_nbins o = n /\ exists d, s_dvbin o = Some d /\ tiles n d (s_vmax o).
Proof.
  intros s units n ext o N H. unfold from_snapshot in H. injection H as <-. cbn [s_nbins s_vmax s_dvbin].
  split; [reflexivity|]. unfold width. destruct (Z.eq_dec n 0); [lia|]. eexists. split; [reflexivity|].
  split; [exact N|]. apply IZR_le in N. field. lra.
Qed.

Lemma C67_both_aux : forall s units r n ext, from_snapshot s units (Some r) (Some n) ext = NoNbins.
Proof. reflexivity. Qed.

Lemma isclose_refl : forall x rtol, 0 <= rtol -> isclose x x rtol = true.
Proof.
  intros x rtol H. unfold isclose. destruct (Rle_dec _ _) as [_|N]; [reflexivity|]. exfalso. apply N.
  replace (x - x) with 0 by ring. rewrite Rabs_R0. assert (Q := Rabs_pos x).
  assert (0 <= rtol * Rabs x) by (apply Rmult_le_pos; assumption). lra.
Qed.

(** The file of a snapshot read with the same units is the same object, if the two assertions pass. *)
Lemma reload : forall s us res nb ext o ul res' ext', sane s -> from_snapshot s us res nb ext = Done o ->
  match ul with Some u => u | None => kpc end = get_units s ->
  from_file (save o) ul res' ext' =
    if (match res', s_dvbin o with None, _ => true | Some r, Some d => isclose d r 1e-2 | Some _, None => false end)
    then (if (match given ext' with None => true | Some v => isclose (s_Hz o) v 1e-4 end) then Done o else WrongHz)
    else PixelWidth.
Proof.
  intros s us res nb ext o ul res' ext' S0 H U. assert (F := snapshot_fields _ _ _ _ _ _ H).
  destruct S0 as (B & A & Hh & _).
  unfold from_file, save. cbn [f_box f_red f_hubble f_omegam f_omegal f_nbins f_Hz]. rewrite U.
  rewrite F. cbn [s_box s_red s_hubble s_omegam s_omegal s_nbins s_Hz s_dvbin].
  replace (1 / (1 + (1 / atime s - 1))) with (atime s) by (field; lra).
  fold (vmax_of s ext). reflexivity.
Qed.

Lemma C67_reload_aux : forall s us res nb ext o ul, sane s -> from_snapshot s us res nb ext = Done o ->
  match ul, unit_length s with
  | Some u, Some w => u = w | None, None => True
  | Some u, None | None, Some u => u = 3.085678e21 end ->
  from_file (save o) ul None ext = Done o /\
  (forall r, res = Some r -> 0 < r -> match ext with Some v => 0 <= v | None => True end ->
     100 * r <= s_vmax o -> from_file (save o) ul (Some r) ext = Done o).
Proof.
  intros s us res nb ext o ul S0 H U.
  assert (U' : match ul with Some u => u | None => kpc end = get_units s).
  { unfold get_units. destruct ul, (unit_length s); try rewrite U; try reflexivity; exact U. }
  assert (HZ : (match given ext with None => true | Some v => isclose (s_Hz o) v 1e-4 end) = true).
  { rewrite (snapshot_fields _ _ _ _ _ _ H). cbn [s_Hz]. unfold Hz_of.
    destruct (given ext) as [v|]; [|reflexivity]. apply isclose_refl. lra. }
  split.
  - rewrite (reload s us res nb ext o ul None ext S0 H U'). cbn iota. rewrite HZ. reflexivity.
  - intros r -> Hr E L. rewrite (reload s us (Some r) nb ext o ul (Some r) ext S0 H U').
    destruct nb as [n|]; [discriminate H|].
    destruct (C67_grid_aux s us r ext o S0 Hr E H) as (F & G & _).
    destruct (G ltac:(lra)) as (d & D & [T1 T2] & T3 & T4). rewrite D. rewrite HZ.
    replace (isclose d r 1e-2) with true; [reflexivity|]. symmetry. unfold isclose.
    destruct (Rle_dec _ _) as [_|N]; [reflexivity|]. exfalso. apply N.
    assert (K : (100 <= s_nbins o)%Z) by (apply (proj2 F); exact L).
    apply IZR_le in K. rewrite (Rabs_pos_eq (d - r)) by lra. rewrite (Rabs_pos_eq r) by lra.
    assert (M : 100 * (d - r) <= IZR (s_nbins o) * (d - r)) by (apply Rmult_le_compat_r; lra). lra.
Qed.

(** A wrong Hubble rate or pixel width is reported. *)
Lemma C67_check_aux : forall f ul res ext o, from_file f ul res ext = Done o ->
  s_nbins o = f_nbins f /\
  (forall r, res = Some r -> exists d, s_dvbin o = Some d /\ Rabs (d - r) <= 1e-8 + 1e-2 * Rabs r) /\
  (forall H, ext = Some H -> H <> 0 -> Rabs (s_Hz o - H) <= 1e-8 + 1e-4 * Rabs H) /\
  (forall H, f_Hz f = Some H -> s_Hz o = H).
Proof.
  intros f ul res ext o H. unfold from_file in H.
  set (Hz := match f_Hz f with Some v => v | None => _ end) in *.
  set (v := f_box f * _) in *.
  destruct (match res, width v (f_nbins f) with None, _ => true | Some r, Some d => isclose d r 1e-2 | Some _, None => false end) eqn:P;
    [|discriminate].
  destruct (match given ext with None => true | Some v => isclose Hz v 1e-4 end) eqn:Q; [|discriminate].
  injection H as <-. cbn [s_nbins s_dvbin s_Hz]. split; [reflexivity|]. split; [|split].
  - intros r ->. destruct (width v (f_nbins f)) as [d|]; [|discriminate]. exists d. split; [reflexivity|].
    unfold isclose in P. destruct (Rle_dec _ _); [assumption|discriminate].
  - intros h -> N. unfold given in Q. destruct (Req_EM_T h 0); [contradiction|].
    unfold isclose in Q. destruct (Rle_dec _ _); [assumption|discriminate].
  - intros h E. unfold Hz. rewrite E. reflexivity.
Qed.

(** The units are not in the file. *)
Lemma C67_units_aux : forall s us res nb ext o u' w o', sane s -> 0 < u' ->
  from_snapshot s us res nb ext = Done o -> unit_length s = Some w ->
  from_file (save o) (Some u') None None = Done o' -> s_vmax o' = s_vmax o * (u' / w) /\ s_nbins o' = s_nbins o.
Proof.
  intros s us res nb ext o u' w o' S0 U H W L.
  assert (Wp : 0 < w) by (destruct S0 as (_ & _ & _ & _ & _ & X); rewrite W in X; exact X).
  unfold from_file in L. cbn [given] in L. injection L as <-. cbn [s_vmax s_nbins save f_nbins f_box f_red f_hubble f_Hz].
  split; [|reflexivity]. rewrite (snapshot_fields _ _ _ _ _ _ H). cbn [s_box s_red s_hubble s_Hz s_vmax].
  destruct S0 as (B & A & Hh & _). unfold vmax_of, get_units. rewrite W. unfold velfac, rscale.
  field. repeat split; lra.
Qed.

(** A box of 10 (kpc/h), a = h = 1, expanding at 150 km/s/Mpc. *)
Definition small : snapshot := Snapshot 10 1 1 1 0 None.

Lemma small_sane : sane small.
Proof. unfold sane, small; cbn. repeat split; lra. Qed.

Lemma small_vmax : vmax_of small (Some 150) = 1.5.
Proof.
  unfold vmax_of, Hz_of, given, velfac, rscale, get_units, small. cbn [box atime hubble unit_length].
  destruct (Req_EM_T 150 0); [lra|]. unfold kpc. lra.
Qed.

Lemma C67_reload_refuted_aux : exists s r ext o, sane s /\ 0 < r /\
  from_snapshot s None (Some r) None ext = Done o /\ from_file (save o) None (Some r) ext = PixelWidth.
Proof.
  assert (H : exists o, from_snapshot small None (Some 1) None (Some 150) = Done o).
  { unfold from_snapshot. destruct (Req_EM_T 1 0); [lra|]. eexists. reflexivity. }
  destruct H as [o H]. exists small, 1, (Some 150), o. split; [exact small_sane|]. split; [lra|]. split; [exact H|].
  rewrite (reload small None (Some 1) None (Some 150) o None (Some 1) (Some 150) small_sane H eq_refl).
  destruct (C67_grid_aux small None 1 (Some 150) o small_sane ltac:(lra) ltac:(lra) H) as (F & G & _).
  assert (V : s_vmax o = 1.5).
  { rewrite (snapshot_fields _ _ _ _ _ _ H). cbn [s_vmax]. apply small_vmax. }
  rewrite V in *. destruct (G ltac:(lra)) as (d & D & [T1 T2] & _). rewrite D.
  assert (N : s_nbins o = 1%Z).
  { destruct F as [F1 _]. assert (L : IZR (s_nbins o) < 2) by lra. apply lt_IZR in L. lia. }
  rewrite N in T2. assert (d = 1.5) by lra. subst d.
  replace (isclose 1.5 1 1e-2) with false; [reflexivity|]. symmetry. unfold isclose.
  destruct (Rle_dec _ _) as [Y|_]; [|reflexivity]. exfalso.
  rewrite (Rabs_pos_eq (1.5 - 1)) in Y by lra. rewrite (Rabs_pos_eq 1) in Y by lra. lra.
Qed.

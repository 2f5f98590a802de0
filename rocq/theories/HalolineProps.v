(** Properties C77, C78 and C79: sightlines through halos, the file they are saved to, and random sightlines. *)
From Coq Require Import ZArith List Bool Reals Lia Lra.
From Flocq Require Import Core.
From Verif Require Import HalolineModel HalolineSpec HalolineProofs.
From Verif Require IndexModel IndexSpec.
Import ListNotations.
Local Open Scope R_scope.

(** ** C77 *)

(** The halos used are, in the order of the catalogue, those between the two mass limits near which there is no heavier halo of
    the whole catalogue; masses become solar masses, positions and radii are kept. *)
Theorem C77_chosen : forall cat lo hi, exists p : halo -> bool,
  (forall h, In h cat -> (p h = true <-> usable cat lo hi h)) /\
  chosen cat lo hi = map (fun h => mkHalo (h_mass h * 1e10) (h_pos h) (h_rad h)) (filter p cat).
Proof. exact C77_chosen_aux. Qed.
Print Assumptions C77_chosen.

(** There are [rep] sightlines per halo, all along the first axis.  Sightline [j] belongs to halo [j / rep]: whatever is
    drawn it goes through a point of the sphere of [offset] virial radii about that halo, and so passes it at no more than that
    distance. *)
Theorem C77_within : forall hs rep offset rand, (0 < rep)%nat -> length rand = (length hs * rep)%nat ->
  length (get_cofm hs rep offset rand) = (length hs * rep)%nat /\
  length (axes hs rep) = (length hs * rep)%nat /\ (forall a, In a (axes hs rep) -> a = 1%Z) /\
  forall j h u v w, nth_error hs (j / rep) = Some h -> nth_error rand j = Some (u, v, w) -> drawn w ->
    exists p, nth_error (get_cofm hs rep offset rand) j = Some p /\
      distance2 p (h_pos h) = (h_rad h * offset * w) ^ 2 /\
      impact2 p (h_pos h) <= (h_rad h * offset) ^ 2 /\
      (h_rad h * offset <> 0 -> distance2 p (h_pos h) < (h_rad h * offset) ^ 2).
Proof. exact C77_within_aux. Qed.
Print Assumptions C77_within.

(** Every point of the sphere can be drawn. *)
Theorem C77_reach : forall h offset p, 0 < h_rad h * offset -> distance2 p (h_pos h) < (h_rad h * offset) ^ 2 ->
  exists u v w, drawn u /\ drawn v /\ drawn w /\ get_cofm [h] 1 offset [(u, v, w)] = [p].
Proof.
  intros h offset p M D. destruct (C77_reach_aux (h_pos h) p _ M D) as [u [v [w [U [V [W E]]]]]].
  exists u, v, w. split; [exact U|]. split; [exact V|]. split; [exact W|].
  unfold get_cofm, np_repeat. cbn [flat_map repeat app combine map]. rewrite E. reflexivity.
Qed.
Print Assumptions C77_reach.

(** The sightlines are not brought back into the box: about a halo near its edge there is a sightline outside, and gas exactly
    on it (on its periodic image, inside the box) is not found by the search for particles near sightlines. *)
Theorem C77_edge_refuted : exists h u v w line p, in_box 100 (h_pos h) /\ h_rad h < 50 /\ drawn u /\ drawn v /\ drawn w /\
  get_cofm [h] 1 1 [(u, v, w)] = [(IZR (IndexModel.l_x line), IZR (IndexModel.l_y line), IZR (IndexModel.l_z line))] /\
  axes [h] 1 = [IndexModel.l_axis line] /\
  IndexSpec.good_particle 100 p /\ (0 < IndexModel.p_h p)%Z /\
  (IndexModel.p_y p mod 100 = IndexModel.l_y line mod 100)%Z /\ (IndexModel.p_z p mod 100 = IndexModel.l_z line mod 100)%Z /\
  IndexModel.get_near_lines 100 [line] p = Some [].
Proof. exact C77_edge_aux. Qed.
Print Assumptions C77_edge_refuted.

(** Under Python 3 the halo of a sightline is never found: the index is a float. *)
Theorem C77_associated_refuted : forall hs rep num, find_associated_halo hs rep num = None.
Proof. exact C77_associated_aux. Qed.
Print Assumptions C77_associated_refuted.

(** ** C78 *)

(** After any number of saves the save file holds the spectra saved last and no halos; these are in the backup, beside the
    spectra of the save before.  So opening the file again computes everything anew from the snapshot. *)
Theorem C78_saves : forall (H B : Type) (hb : list (H * B)) h b (d : disk H B),
  (forall f, d_main d = Some f -> fh f = None) ->
  let d' := fold_left (fun d x => save (fst x) (snd x) d) (hb ++ [(h, b)]) d in
  d_main d' = Some (mkFile None (Some b)) /\
  (exists old, d_back d' = Some (mkFile (Some h) old) /\
     old = match rev hb with (_, b') :: _ => Some b' | [] => match d_main d with Some f => fb f | None => None end end) /\
  construct d' None = FromSnapshot.
Proof. exact @C78_saves_aux. Qed.
Print Assumptions C78_saves.

(** A file that has both, as intended, cannot be opened at all. *)
Theorem C78_complete_refuted : forall (H B : Type) (d : disk H B) h b res, d_main d = Some (mkFile (Some h) (Some b)) ->
  construct d res = AttributeErr.
Proof. exact @C78_complete_aux. Qed.
Print Assumptions C78_complete_refuted.

(** A save interrupted after the halos are written: if there were spectra in the file, no object can be made until the file is
    removed; if not, objects can be made but never saved. *)
Theorem C78_crash_refuted : forall (H B : Type) (d : disk H B) h b, (forall f, d_main d = Some f -> fh f = None) ->
  forall d', nth_error (fst (save_steps h b d)) 1 = Some d' ->
  (forall f b', d_main d = Some f -> fb f = Some b' -> construct d' None = AttributeErr) /\
  ((d_main d = None \/ exists f, d_main d = Some f /\ fb f = None) ->
     construct d' None = FromSnapshot /\ forall hb, fold_left (fun d x => save (fst x) (snd x) d) hb d' = d').
Proof. exact @C78_crash_aux. Qed.
Print Assumptions C78_crash_refuted.

(** A save fails exactly if the file has halos, and then changes nothing. *)
Theorem C78_outcome : forall (H B : Type) (d : disk H B) h b,
  (snd (save_steps h b d) = false <-> exists f h', d_main d = Some f /\ fh f = Some h') /\
  (snd (save_steps h b d) = false -> fst (save_steps h b d) = [d]).
Proof. exact @C78_outcome_aux. Qed.
Print Assumptions C78_outcome.

(** Wherever a save is interrupted, the spectra saved before are in the file or in the backup; ... *)
Theorem C78_survives : forall (H B : Type) (d : disk H B) h b f b0, d_main d = Some f -> fb f = Some b0 ->
  forall d', In d' (fst (save_steps h b d)) ->
  exists g, (d_main d' = Some g \/ d_back d' = Some g) /\ fb g = Some b0.
Proof. exact @C78_survives_aux. Qed.
Print Assumptions C78_survives.

(** ... but there is a moment without a save file, after which a new object starts from the snapshot. *)
Theorem C78_gap_refuted : forall (H B : Type) (d : disk H B) h b, (forall f, d_main d = Some f -> fh f = None) ->
  exists d', In d' (fst (save_steps h b d)) /\ d_main d' = None /\ construct d' None = FromSnapshot /\
    d_back d' = Some (mkFile (Some h) (match d_main d with Some f => fb f | None => None end)).
Proof. exact @C78_gap_aux. Qed.
Print Assumptions C78_gap_refuted.

(** No object can be made with a pixel width. *)
Theorem C78_width_refuted : forall (H B : Type) (d : disk H B) r, construct d (Some r) = AttributeErr.
Proof. exact @C78_width_aux. Qed.
Print Assumptions C78_width_refuted.

(** ** C79 *)

(** Random sightlines are inside the box, also after rounding: no coordinate is rounded up to the box size. *)
Theorem C79_inside : forall box ks, generic_format radix2 (FLT_exp (-1074) 53) box -> bpow radix2 (-1021) <= box ->
  (forall a b c, In (a, b, c) ks -> (0 <= a < 2 ^ 53)%Z /\ (0 <= b < 2 ^ 53)%Z /\ (0 <= c < 2 ^ 53)%Z) ->
  length (rand_cofm box ks) = length ks /\ forall p, In p (rand_cofm box ks) -> in_box box p.
Proof. exact C79_inside_aux. Qed.
Print Assumptions C79_inside.

(** ** Non-vacuity *)

(** Three halos, of which one is near a heavier one and one too light. *)
Example chosen_case : let a := mkHalo 5 (10, 10, 10) 3 in let b := mkHalo 2 (11, 11, 11) 2 in let c := mkHalo 0.5 (40, 40, 40) 1 in
  usable [a; b; c] 1e10 1e11 a /\ ~ usable [a; b; c] 1e10 1e11 b /\ ~ usable [a; b; c] 1e10 1e11 c.
Proof.
  intros a b c. unfold usable, in_cube. split; [|split].
  - split; [left; reflexivity|]. split; [cbn; lra|]. intros g [<-|[<-|[<-|[]]]]; cbn; lra.
  - intros [_ [_ N]]. apply (N a); [left; reflexivity|cbn; lra|]. cbn.
    replace (10 - 11) with (-(1)) by lra. rewrite Rabs_Ropp, Rabs_R1. lra.
  - intros [_ [[L _] _]]. cbn in L. lra.
Qed.

(** Two sightlines through one halo: the first through its centre. *)
Example lines_case : exists p q, get_cofm [mkHalo 1 (5, 6, 7) 2] 2 1 [(0, 0, 0); (3 / 4, 0, 1 / 2)] = [p; q] /\ p = (5, 6, 7) /\ q = (6, 6, 7).
Proof.
  eexists. eexists. split; [reflexivity|]. split; cbn -[PI]; f_equal; try (f_equal; ring); try ring.
  - replace (2 * PI * (3 / 4) - PI) with (PI / 2) by field. rewrite sin_PI2. replace (2 * PI * 0) with 0 by ring. rewrite sin_0, cos_0.
    f_equal; lra.
  - replace (2 * PI * (3 / 4) - PI) with (PI / 2) by field. rewrite cos_PI2. ring.
Qed.

(** Two saves on an empty disk. *)
Example saves_case : let d := fold_left (fun d x => save (fst x) (snd x) d) [(1, 10); (2, 20)]%nat (mkDisk None None) in
  d_main d = Some (mkFile None (Some 20%nat)) /\ d_back d = Some (mkFile (Some 2%nat) (Some 10%nat)).
Proof. split; reflexivity. Qed.

(** The box of 25000 is a double, and 2^53 - 1 can be drawn. *)
Example box_case : generic_format radix2 (FLT_exp (-1074) 53) 25000 /\ bpow radix2 (-1021) <= 25000 /\ (0 <= 2 ^ 53 - 1 < 2 ^ 53)%Z.
Proof.
  split; [|split; [|lia]].
  - apply generic_format_FLT. exists (Float radix2 25000 0); [unfold F2R; cbn; ring|cbn; lia|cbn; lia].
  - apply Rle_trans with (bpow radix2 0); [apply bpow_le; lia|cbn; lra].
Qed.

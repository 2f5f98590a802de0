(** Proofs about sightlines through halos and at random (C77, C78, C79). *)
From Coq Require Import ZArith List Bool Reals Lia Lra.
From Flocq Require Import Core.
From Verif Require Import HalolineModel HalolineSpec.
From Verif Require IndexModel IndexSpec.
Import ListNotations.
Local Open Scope R_scope.

(** ** Selection *)

Lemma to_solar_eq : forall m, to_solar m = m * 1e10.
Proof. intros m. unfold to_solar. lra. Qed.

Lemma near_spec : forall r a b, near r a b = true <-> in_cube r b a.
Proof.
  intros r [[x y] z] [[x' y'] z']. unfold near, in_cube.
  destruct (Rlt_dec (Rabs (x - x')) r), (Rlt_dec (Rabs (y - y')) r), (Rlt_dec (Rabs (z - z')) r); cbn; intuition congruence.
Qed.

Definition conv (h : halo) : halo := mkHalo (h_mass h * 1e10) (h_pos h) (h_rad h).

Lemma filter_map : forall A B (f : A -> B) p l, filter p (map f l) = map f (filter (fun x => p (f x)) l).
Proof. intros. induction l as [|x l IH]; [reflexivity|]. cbn [map filter]. destruct (p (f x)); cbn [map]; congruence. Qed.

Lemma filter_filter : forall A (p q : A -> bool) l, filter p (filter q l) = filter (fun x => q x && p x) l.
Proof.
  intros. induction l as [|x l IH]; [reflexivity|]. cbn [filter]. destruct (q x); cbn [filter andb]; [|exact IH].
  destruct (p x); congruence.
Qed.

Lemma C77_chosen_aux : forall cat lo hi, exists p : halo -> bool,
  (forall h, In h cat -> (p h = true <-> usable cat lo hi h)) /\
  chosen cat lo hi = map (fun h => mkHalo (h_mass h * 1e10) (h_pos h) (h_rad h)) (filter p cat).
Proof.
  intros cat lo hi. unfold chosen, find_wanted_halos.
  assert (A : find_all_halos cat (lo / 1e10) = map conv (filter (fun h => if Rlt_dec (lo / 1e10) (h_mass h) then true else false) cat)).
  { unfold find_all_halos. apply map_ext. intros h. unfold conv. rewrite to_solar_eq. reflexivity. }
  rewrite A. rewrite !filter_map, !filter_filter. eexists. split; [|reflexivity].
  set (sel := filter (fun h => if Rlt_dec (lo / 1e10) (h_mass h) then true else false) cat).
  intros h I. rewrite !andb_true_iff. unfold usable, is_masked. rewrite negb_true_iff.
  assert (E10 : 0 < 1e10) by lra.
  assert (LO : forall g, (if Rlt_dec (lo / 1e10) (h_mass g) then true else false) = true <-> lo < h_mass g * 1e10).
  { intros g. destruct (Rlt_dec (lo / 1e10) (h_mass g)) as [L|L].
    - split; [intros _|reflexivity]. apply Rmult_lt_compat_r with (r := 1e10) in L; [|exact E10].
      replace (lo / 1e10 * 1e10) with lo in L by lra. exact L.
    - split; [discriminate|]. intros Q. exfalso. apply L. apply Rmult_lt_reg_r with 1e10; [exact E10|].
      replace (lo / 1e10 * 1e10) with lo by lra. exact Q. }
  rewrite LO. change (h_mass (conv h)) with (h_mass h * 1e10). change (h_rad (conv h)) with (h_rad h).
  change (h_pos (conv h)) with (h_pos h).
  assert (EX : forall b : bool, b = false <-> ~ b = true) by (intros []; intuition congruence).
  rewrite EX, existsb_exists. split.
  - intros [L [N HI]]. destruct (Rlt_dec (h_mass h * 1e10) hi) as [Q|Q]; [|discriminate]. split; [exact I|]. split; [lra|].
    intros g G M C. apply N. exists (conv g). split.
    + apply in_map. unfold sel. apply filter_In. split; [exact G|]. apply LO. apply Rlt_trans with (h_mass h * 1e10); [exact L|].
      apply Rmult_lt_compat_r; auto.
    + apply andb_true_iff. split; [apply near_spec; exact C|]. unfold conv. cbn [h_mass].
      destruct (Rlt_dec (h_mass h * 1e10) (h_mass g * 1e10)) as [|W]; [reflexivity|]. exfalso. apply W. apply Rmult_lt_compat_r; [lra|exact M].
  - intros [_ [[L HI] N]]. split.
    + exact L.
    + split.
      { intros [g' [G' T]]. apply in_map_iff in G' as [g [<- G]]. unfold sel in G. apply filter_In in G as [G _].
      apply andb_true_iff in T as [T1 T2]. apply near_spec in T1. apply (N g G); [|exact T1].
      unfold conv in T2. cbn [h_mass] in T2. destruct (Rlt_dec (h_mass h * 1e10) (h_mass g * 1e10)) as [W|W]; [|discriminate].
      apply Rmult_lt_reg_r with 1e10; [lra|exact W]. }
      destruct (Rlt_dec (h_mass h * 1e10) hi); [reflexivity|contradiction].
Qed.

(** ** Sightlines *)

Lemma np_repeat_length : forall A n (l : list A), length (np_repeat n l) = (length l * n)%nat.
Proof. intros A n l. unfold np_repeat. induction l as [|x l IH]; [reflexivity|]. cbn [flat_map length]. rewrite app_length, repeat_length, IH. lia. Qed.

Lemma nth_repeat_some : forall A (x : A) n j, (j < n)%nat -> nth_error (repeat x n) j = Some x.
Proof. intros A x n; induction n as [|n IH]; intros j L; [lia|]. destruct j; [reflexivity|]. cbn. apply IH. lia. Qed.

Lemma np_repeat_nth : forall A n (l : list A) j, (0 < n)%nat -> nth_error (np_repeat n l) j = nth_error l (j / n).
Proof.
  intros A n l j N. revert j. induction l as [|x l IH]; intros j.
  - destruct j, (_ / n)%nat; reflexivity.
  - unfold np_repeat in *. cbn [flat_map]. destruct (lt_dec j n) as [L|L].
    + rewrite nth_error_app1 by (rewrite repeat_length; exact L). rewrite (Nat.div_small j n L). cbn. apply nth_repeat_some, L.
    + rewrite nth_error_app2 by (rewrite repeat_length; lia). rewrite repeat_length, IH.
      replace (j / n)%nat with (S ((j - n) / n))%nat; [reflexivity|].
      replace j with (j - n + 1 * n)%nat at 2 by lia. rewrite Nat.div_add by lia. lia.
Qed.

Lemma combine_nth : forall A B (l : list A) (m : list B) j x y, nth_error l j = Some x -> nth_error m j = Some y ->
  nth_error (combine l m) j = Some (x, y).
Proof.
  intros A B l; induction l as [|a l IH]; intros m j x y H1 H2; [destruct j; discriminate|].
  destruct m as [|b m]; [destruct j; discriminate|]. destruct j as [|j]; cbn in *; [congruence|]. apply IH; auto.
Qed.

Lemma perturb_distance : forall c r u v w, distance2 (perturb c r u v w) c = (r * w) ^ 2.
Proof.
  intros [[x y] z] r u v w. unfold perturb, distance2. set (t := 2 * PI * u - PI). set (p := 2 * PI * v).
  pose proof (sin2_cos2 t) as T. pose proof (sin2_cos2 p) as P. unfold Rsqr in *.
  replace ((x + r * w * (sin t * cos p) - x) ^ 2 + (y + r * w * (sin t * sin p) - y) ^ 2 + (z + r * w * cos t - z) ^ 2)
    with ((r * w) ^ 2 * (sin t * sin t * (sin p * sin p + cos p * cos p) + cos t * cos t)) by ring.
  rewrite P, Rmult_1_r, T. ring.
Qed.

Lemma impact_le : forall a b, impact2 a b <= distance2 a b.
Proof. intros [[x y] z] [[x' y'] z']. unfold impact2, distance2. pose proof (pow2_ge_0 (x - x')). lra. Qed.

Lemma C77_within_aux : forall hs rep offset rand, (0 < rep)%nat -> length rand = (length hs * rep)%nat ->
  length (get_cofm hs rep offset rand) = (length hs * rep)%nat /\
  length (axes hs rep) = (length hs * rep)%nat /\ (forall a, In a (axes hs rep) -> a = 1%Z) /\
  forall j h u v w, nth_error hs (j / rep) = Some h -> nth_error rand j = Some (u, v, w) -> drawn w ->
    exists p, nth_error (get_cofm hs rep offset rand) j = Some p /\
      distance2 p (h_pos h) = (h_rad h * offset * w) ^ 2 /\
      impact2 p (h_pos h) <= (h_rad h * offset) ^ 2 /\
      (h_rad h * offset <> 0 -> distance2 p (h_pos h) < (h_rad h * offset) ^ 2).
Proof.
  intros hs rep offset rand RP L. split; [|split; [|split]].
  - unfold get_cofm. rewrite map_length, combine_length, np_repeat_length, L. lia.
  - unfold axes. rewrite np_repeat_length, repeat_length. reflexivity.
  - intros a I. unfold axes, np_repeat in I. apply in_flat_map in I as [b [I1 I2]]. apply repeat_spec in I1. apply repeat_spec in I2. congruence.
  - intros j h u v w H U [W0 W1]. exists (perturb (h_pos h) (h_rad h * offset) u v w).
    assert (D := perturb_distance (h_pos h) (h_rad h * offset) u v w). set (m := h_rad h * offset) in *.
    assert (Q : 0 <= w * w < 1). { split; [nra|]. nra. }
    split.
    + unfold get_cofm. rewrite nth_error_map. rewrite (combine_nth _ _ _ _ j h (u, v, w)); [reflexivity| |exact U].
      rewrite np_repeat_nth by exact RP. exact H.
    + split; [exact D|]. split.
      * eapply Rle_trans; [apply impact_le|]. rewrite D. assert (0 <= m * m) by (apply Rle_0_sqr). nra.
      * intros N. rewrite D. assert (0 < m * m) by (apply Rsqr_pos_lt; exact N). nra.
Qed.

(** ** Every point of the sphere can be drawn *)

Lemma angle_exists : forall a b, a * a + b * b = 1 -> exists v, drawn v /\ cos (2 * PI * v) = a /\ sin (2 * PI * v) = b.
Proof.
  intros a b E. pose proof PI_RGT_0 as P. assert (A : -1 <= a <= 1) by nra.
  pose proof (acos_bound a) as [B1 B2]. pose proof (cos_acos a A) as C.
  assert (S2 : sin (acos a) = Rabs b).
  { rewrite sin_acos by exact A. unfold Rsqr. replace (1 - a * a) with (Rsqr b) by (unfold Rsqr; lra). apply sqrt_Rsqr_abs. }
  destruct (Rle_dec 0 b) as [H|H].
  - exists (acos a / (2 * PI)). assert (Q : 2 * PI * (acos a / (2 * PI)) = acos a) by (field; lra). rewrite Q. split.
    + split; [apply Rmult_le_pos; [lra|left; apply Rinv_0_lt_compat; lra]|].
      apply Rmult_lt_reg_l with (2 * PI); [lra|]. rewrite Q. lra.
    + split; [exact C|]. rewrite S2, Rabs_pos_eq; auto.
  - assert (NE : 0 < acos a).
    { destruct (Req_dec (acos a) 0) as [Z|Z]; [|lra]. rewrite Z, cos_0 in C. nra. }
    exists ((2 * PI - acos a) / (2 * PI)). assert (Q : 2 * PI * ((2 * PI - acos a) / (2 * PI)) = - acos a + 2 * PI) by (field; lra). rewrite Q. split.
    + split; [apply Rmult_le_pos; [lra|left; apply Rinv_0_lt_compat; lra]|].
      apply Rmult_lt_reg_l with (2 * PI); [lra|]. rewrite Q. lra.
    + split.
      * replace (- acos a + 2 * PI) with (- acos a + 2 * INR 1 * PI) by (cbn; ring). rewrite cos_period, cos_neg. exact C.
      * replace (- acos a + 2 * PI) with (- acos a + 2 * INR 1 * PI) by (cbn; ring). rewrite sin_period, sin_neg, S2, Rabs_left by lra. lra.
Qed.

Lemma C77_reach_aux : forall c p m, 0 < m -> distance2 p c < m ^ 2 ->
  exists u v w, drawn u /\ drawn v /\ drawn w /\ perturb c m u v w = p.
Proof.
  intros [[x y] z] [[x' y'] z'] m M D. unfold distance2 in D. pose proof PI_RGT_0 as P.
  set (a := x' - x) in *. set (b := y' - y) in *. set (e := z' - z) in *.
  set (r := sqrt (a ^ 2 + b ^ 2 + e ^ 2)).
  assert (R2 : r * r = a ^ 2 + b ^ 2 + e ^ 2) by (apply sqrt_sqrt; nra).
  assert (R0 : 0 <= r) by apply sqrt_pos.
  assert (RM : r < m) by nra.
  set (w := r / m). assert (W : m * w = r) by (unfold w; field; lra).
  assert (DW : drawn w).
  { unfold w. split; [apply Rmult_le_pos; [lra|left; apply Rinv_0_lt_compat; lra]|].
    apply Rmult_lt_reg_l with m; [lra|]. fold w. rewrite W. lra. }
  assert (G : exists u v, drawn u /\ drawn v /\ r * (sin (2 * PI * u - PI) * cos (2 * PI * v)) = a /\
     r * (sin (2 * PI * u - PI) * sin (2 * PI * v)) = b /\ r * cos (2 * PI * u - PI) = e).
  { destruct (Req_dec r 0) as [Z|Z].
    - exists 0, 0. rewrite Z. rewrite Z in R2. assert (a = 0) by nra. assert (b = 0) by nra. assert (e = 0) by nra.
      unfold drawn. repeat split; lra.
    - assert (RP : 0 < r) by lra.
      set (s := sqrt (a ^ 2 + b ^ 2)).
      assert (SS : s * s = a ^ 2 + b ^ 2) by (apply sqrt_sqrt; nra).
      assert (E1 : (- e / r) * (- e / r) + (- s / r) * (- s / r) = 1).
      { replace ((- e / r) * (- e / r) + (- s / r) * (- s / r)) with ((e ^ 2 + s * s) / (r * r)) by (field; lra).
        rewrite SS, R2. field. rewrite <- R2. nra. }
      destruct (angle_exists _ _ E1) as [u [DU [CU SU]]].
      assert (E2 : exists v, drawn v /\ s * cos (2 * PI * v) = a /\ s * sin (2 * PI * v) = b).
      { destruct (Req_dec s 0) as [Zs|Zs].
        - exists 0. rewrite Zs in SS. assert (a = 0) by nra. assert (b = 0) by nra. unfold drawn. rewrite Zs. repeat split; lra.
        - assert (E2 : (a / s) * (a / s) + (b / s) * (b / s) = 1).
          { replace ((a / s) * (a / s) + (b / s) * (b / s)) with ((a ^ 2 + b ^ 2) / (s * s)) by (field; lra).
            rewrite SS. field. rewrite <- SS. nra. }
          destruct (angle_exists _ _ E2) as [v [DV [CV SV]]]. exists v. split; [exact DV|]. rewrite CV, SV. split; field; exact Zs. }
      destruct E2 as [v [DV [CV SV]]]. exists u, v. split; [exact DU|]. split; [exact DV|].
      rewrite sin_minus, cos_minus, cos_PI, sin_PI, CU, SU.
      replace (r * ((- s / r * -1 - - e / r * 0) * cos (2 * PI * v))) with (s * cos (2 * PI * v)) by (field; lra).
      replace (r * ((- s / r * -1 - - e / r * 0) * sin (2 * PI * v))) with (s * sin (2 * PI * v)) by (field; lra).
      rewrite CV, SV. repeat split. field. lra. }
  destruct G as [u [v [DU [DV [G1 [G2 G3]]]]]]. exists u, v, w. split; [exact DU|]. split; [exact DV|]. split; [exact DW|].
  unfold perturb. rewrite W, G1, G2, G3. unfold a, b, e. f_equal; [f_equal|]; ring.
Qed.

(** ** Lines outside the box *)

Lemma C77_edge_aux : exists h u v w line p, in_box 100 (h_pos h) /\ h_rad h < 50 /\ drawn u /\ drawn v /\ drawn w /\
  get_cofm [h] 1 1 [(u, v, w)] = [(IZR (IndexModel.l_x line), IZR (IndexModel.l_y line), IZR (IndexModel.l_z line))] /\
  axes [h] 1 = [IndexModel.l_axis line] /\
  IndexSpec.good_particle 100 p /\ (0 < IndexModel.p_h p)%Z /\
  (IndexModel.p_y p mod 100 = IndexModel.l_y line mod 100)%Z /\ (IndexModel.p_z p mod 100 = IndexModel.l_z line mod 100)%Z /\
  IndexModel.get_near_lines 100 [line] p = Some [].
Proof.
  exists (mkHalo 1 (50, 5, 20) 30), (3 / 4), (3 / 4), (1 / 2), (IndexModel.mkLine 1 50 (-10) 20), (IndexModel.mkPart 7 90 20 2).
  split; [cbn; lra|]. split; [cbn; lra|]. split; [unfold drawn; lra|]. split; [unfold drawn; lra|]. split; [unfold drawn; lra|].
  split.
  { unfold get_cofm, np_repeat. cbn [flat_map repeat app combine map h_pos h_rad]. unfold perturb. f_equal.
    replace (2 * PI * (3 / 4) - PI) with (PI / 2) by field. rewrite sin_PI2, cos_PI2.
    replace (2 * PI * (3 / 4)) with (3 * (PI / 2)) by field. rewrite cos_3PI2, sin_3PI2.
    cbn [IndexModel.l_x IndexModel.l_y IndexModel.l_z]. f_equal; [f_equal|]; lra. }
  split; [reflexivity|]. split.
  { unfold IndexSpec.good_particle, IndexSpec.inside. cbn. lia. }
  repeat split.
Qed.

Lemma C77_associated_aux : forall hs rep num, find_associated_halo hs rep num = None.
Proof. reflexivity. Qed.

(** ** The save file *)

Section Save.
Context {H B : Type}.

(** A sequence of saves. *)
Definition saves (hb : list (H * B)) (d : disk H B) : disk H B := fold_left (fun d x => save (fst x) (snd x) d) hb d.

Definition plain_main (d : disk H B) : Prop := forall f, d_main d = Some f -> fh f = None.

Lemma save_plain : forall h b d, plain_main d ->
  d_main (save h b d) = Some (mkFile None (Some b)) /\
  d_back (save h b d) = Some (mkFile (Some h) (match d_main d with Some f => fb f | None => None end)).
Proof.
  intros h b d P. unfold save, save_steps. destruct (d_main d) as [[fh0 fb0]|] eqn:E.
  - pose proof (P _ E) as Q. cbn [fh] in Q. subst fh0. cbn. auto.
  - cbn. auto.
Qed.

Lemma C78_saves_aux : forall hb h b (d : disk H B), plain_main d ->
  let d' := saves (hb ++ [(h, b)]) d in
  d_main d' = Some (mkFile None (Some b)) /\
  (exists old, d_back d' = Some (mkFile (Some h) old) /\
     old = match rev hb with (_, b') :: _ => Some b' | [] => match d_main d with Some f => fb f | None => None end end) /\
  construct d' None = FromSnapshot.
Proof.
  intros hb h b d P d'.
  assert (I : plain_main (saves hb d) /\
    match d_main (saves hb d) with Some f => fb f | None => None end =
    match rev hb with (_, b') :: _ => Some b' | [] => match d_main d with Some f => fb f | None => None end end).
  { clear d' h b. induction hb as [|[h b] hb IH] using rev_ind; [auto|]. unfold saves in *. rewrite fold_left_app. cbn [fold_left fst snd].
    rewrite rev_app_distr. cbn [rev app]. destruct IH as [IH _]. destruct (save_plain h b _ IH) as [E _].
    split; [intros f F; rewrite E in F; injection F as <-; reflexivity|]. rewrite E. reflexivity. }
  destruct I as [I1 I2]. destruct (save_plain h b _ I1) as [E1 E2].
  assert (D : d' = save h b (saves hb d)).
  { unfold d', saves. rewrite fold_left_app. reflexivity. }
  rewrite D. split; [exact E1|]. split; [|unfold construct; rewrite E1; reflexivity].
  eexists. split; [exact E2|exact I2].
Qed.

Lemma C78_complete_aux : forall (d : disk H B) h b res, d_main d = Some (mkFile (Some h) (Some b)) -> construct d res = AttributeErr.
Proof. intros d h b res E. unfold construct. rewrite E. reflexivity. Qed.

Lemma C78_crash_aux : forall (d : disk H B) h b, plain_main d -> forall d', nth_error (fst (save_steps h b d)) 1 = Some d' ->
  (forall f b', d_main d = Some f -> fb f = Some b' -> construct d' None = AttributeErr) /\
  ((d_main d = None \/ exists f, d_main d = Some f /\ fb f = None) ->
     construct d' None = FromSnapshot /\ forall hb, saves hb d' = d').
Proof.
  intros d h b P d' E. unfold save_steps in E.
  assert (Q : fh (match d_main d with None => mkFile None None | Some f => f end) = None).
  { destruct (d_main d) as [f|] eqn:F; [apply (P f F)|reflexivity]. }
  rewrite Q in E. cbn [fst nth_error] in E. injection E as <-. unfold construct. cbn [d_main]. split.
  - intros f b' F FB. rewrite F, FB. reflexivity.
  - intros N. assert (FB : fb (match d_main d with None => mkFile None None | Some f => f end) = None).
    { destruct N as [->|[f [-> N]]]; [reflexivity|exact N]. }
    rewrite FB. split; [reflexivity|]. intros hb. induction hb as [|[h' b'] hb IH]; [reflexivity|].
    unfold saves in *. cbn [fold_left fst snd]. unfold save at 2. unfold save_steps. cbn [d_main fh fst last]. exact IH.
Qed.

Lemma C78_width_aux : forall (d : disk H B) r, construct d (Some r) = AttributeErr.
Proof. intros d r. unfold construct. destruct (d_main d) as [[[h|] [b|]]|]; reflexivity. Qed.

End Save.

(** ** Random positions in double precision *)

Local Existing Instance FLT_exp_valid.
Local Instance prec53 : Prec_gt_0 53. Proof. reflexivity. Qed.
Local Instance b64_valid : Valid_exp b64. Proof. exact (FLT_exp_valid (-1074) 53). Qed.
Local Instance b64_mono : Monotone_exp b64. Proof. exact (FLT_exp_monotone (-1074) 53). Qed.

Lemma rnd_0 : rnd 0 = 0.
Proof. unfold rnd. apply round_0. typeclasses eauto. Qed.

Lemma rnd_mono : forall x y, x <= y -> rnd x <= rnd y.
Proof. intros x y L. unfold rnd. apply round_le; auto; typeclasses eauto. Qed.

(** The gap below a double is smaller than the last place of twice its size. *)
Lemma gap_below : forall box, generic_format radix2 b64 box -> bpow radix2 (-1021) <= box ->
  box - pred radix2 b64 box < box * bpow radix2 (-52).
Proof.
  intros box F B. assert (P : 0 < box) by (eapply Rlt_le_trans; [apply bpow_gt_0|exact B]).
  assert (M : (-1021 < mag radix2 box)%Z).
  { apply mag_gt_bpow. rewrite Rabs_pos_eq by lra. exact B. }
  assert (EX : b64 (mag radix2 box) = (mag radix2 box - 53)%Z) by (unfold b64, FLT_exp; lia).
  destruct (mag radix2 box) as [e E] eqn:EM. cbn [mag_val] in *.
  assert (E' : bpow radix2 (e - 1) <= box < bpow radix2 e) by (rewrite <- (Rabs_pos_eq box) by lra; apply E; lra).
  unfold pred, succ. rewrite Rle_bool_false by lra.
  rewrite !Ropp_involutive. unfold pred_pos. rewrite EM. cbn [mag_val].
  destruct (Req_bool_spec box (bpow radix2 (e - 1))) as [Q|Q].
  - assert (EX2 : b64 (e - 1) = Z.max (e - 54) (-1074)) by (unfold b64, FLT_exp; f_equal; lia).
    replace (box - (box - bpow radix2 (b64 (e - 1)))) with (bpow radix2 (b64 (e - 1))) by ring.
    rewrite Q at 1. rewrite <- bpow_plus. apply bpow_lt. rewrite EX2. lia.
  - replace (box - (box - ulp radix2 b64 box)) with (ulp radix2 b64 box) by ring.
    rewrite ulp_neq_0 by lra. unfold cexp. rewrite EM. cbn [mag_val]. rewrite EX.
    apply Rle_lt_trans with (bpow radix2 (e - 1) * bpow radix2 (-52)).
    + rewrite <- bpow_plus. apply bpow_le. lia.
    + apply Rmult_lt_compat_r; [apply bpow_gt_0|]. lra.
Qed.

Lemma sample_bounds : forall k, (0 <= k < 2 ^ 53)%Z -> 0 <= sample k <= 1 - bpow radix2 (-53).
Proof.
  intros k [K1 K2]. unfold sample.
  assert (E : 2 ^ 53 = IZR (2 ^ 53)) by (symmetry; exact (eq_sym (pow_IZR 2 53))).
  rewrite E. set (n := IZR (2 ^ 53)) in *. assert (N : 0 < n) by (unfold n; apply IZR_lt; reflexivity).
  assert (A : 0 <= IZR k) by (apply IZR_le; lia).
  assert (B : IZR k <= n - 1) by (unfold n; rewrite <- minus_IZR; apply IZR_le; lia).
  replace (bpow radix2 (-53)) with (/ n) by reflexivity.
  split; [apply Rmult_le_pos; [exact A|left; apply Rinv_0_lt_compat; exact N]|].
  apply Rmult_le_reg_r with n; [exact N|]. replace (IZR k / n * n) with (IZR k) by (field; lra).
  replace ((1 - / n) * n) with (n - 1) by (field; lra). exact B.
Qed.

Lemma C79_coord_aux : forall box k, generic_format radix2 b64 box -> bpow radix2 (-1021) <= box -> (0 <= k < 2 ^ 53)%Z ->
  0 <= rand_coord box k < box.
Proof.
  intros box k F B K. destruct (sample_bounds k K) as [S1 S2].
  assert (P : 0 < box) by (eapply Rlt_le_trans; [apply bpow_gt_0|exact B]).
  unfold rand_coord. split; [rewrite <- rnd_0; apply rnd_mono, Rmult_le_pos; lra|].
  pose proof (gap_below box F B) as G.
  assert (FP : generic_format radix2 b64 (pred radix2 b64 box)) by (apply generic_format_pred; auto; typeclasses eauto).
  assert (PL : pred radix2 b64 box < box) by (apply pred_lt_id; lra).
  assert (SP : succ radix2 b64 (pred radix2 b64 box) = box) by (apply succ_pred; auto; typeclasses eauto).
  apply Rle_lt_trans with (pred radix2 b64 box); [|exact PL].
  unfold rnd. apply round_N_le_midp; [typeclasses eauto|exact FP|]. rewrite SP.
  assert (H52 : bpow radix2 (-52) = 2 * bpow radix2 (-53)).
  { change 2 with (bpow radix2 1). rewrite <- bpow_plus. reflexivity. }
  rewrite H52 in G. assert (B3 := bpow_gt_0 radix2 (-53)). set (t := bpow radix2 (-53)) in *. clearbody t.
  assert (box * sample k <= box * (1 - t)) by (apply Rmult_le_compat_l; lra). lra.
Qed.

Lemma C79_inside_aux : forall box ks, generic_format radix2 b64 box -> bpow radix2 (-1021) <= box ->
  (forall a b c, In (a, b, c) ks -> (0 <= a < 2 ^ 53)%Z /\ (0 <= b < 2 ^ 53)%Z /\ (0 <= c < 2 ^ 53)%Z) ->
  length (rand_cofm box ks) = length ks /\ forall p, In p (rand_cofm box ks) -> in_box box p.
Proof.
  intros box ks F B K. split; [apply map_length|]. intros p I. unfold rand_cofm in I. apply in_map_iff in I as [[[a b] c] [<- I]].
  destruct (K a b c I) as [A [Bb C]]. unfold in_box. repeat apply conj; apply (C79_coord_aux box _ F B); assumption.
Qed.

Lemma C78_outcome_aux : forall (H B : Type) (d : disk H B) h b,
  (snd (save_steps h b d) = false <-> exists f h', d_main d = Some f /\ fh f = Some h') /\
  (snd (save_steps h b d) = false -> fst (save_steps h b d) = [d]).
Proof.
  intros H B d h b. unfold save_steps. destruct (d_main d) as [[[h'|] fb0]|] eqn:E; cbn [fh fst snd].
  - split; [|reflexivity]. split; [|reflexivity]. intros _. exists (mkFile (Some h') fb0), h'. auto.
  - split; [|discriminate]. split; [discriminate|]. intros [f [h' [F G]]]. injection F as <-. discriminate.
  - split; [|discriminate]. split; [discriminate|]. intros [f [h' [F G]]]. discriminate.
Qed.

Lemma C78_survives_aux : forall (H B : Type) (d : disk H B) h b f b0, d_main d = Some f -> fb f = Some b0 ->
  forall d', In d' (fst (save_steps h b d)) ->
  exists g, (d_main d' = Some g \/ d_back d' = Some g) /\ fb g = Some b0.
Proof.
  intros H B d h b f b0 M F d' I. unfold save_steps in I. rewrite M in I. destruct (fh f) as [h'|] eqn:E; cbn [fst In] in I.
  - destruct I as [<-|[]]. exists f. auto.
  - destruct I as [<-|[<-|[<-|[<-|[]]]]]; cbn [d_main d_back].
    + exists f. auto.
    + exists (mkFile (Some h) (fb f)). auto.
    + exists (mkFile (Some h) (fb f)). auto.
    + exists (mkFile (Some h) (fb f)). auto.
Qed.

Lemma C78_gap_aux : forall (H B : Type) (d : disk H B) h b, (forall f, d_main d = Some f -> fh f = None) ->
  exists d', In d' (fst (save_steps h b d)) /\ d_main d' = None /\ construct d' None = FromSnapshot /\
    d_back d' = Some (mkFile (Some h) (match d_main d with Some f => fb f | None => None end)).
Proof.
  intros H B d h b N. exists (mkDisk None (Some (mkFile (Some h) (match d_main d with Some f => fb f | None => None end)))).
  split; [|split; [reflexivity|split; reflexivity]]. unfold save_steps. destruct (d_main d) as [f|] eqn:E.
  - rewrite (N f eq_refl). cbn [fst In]. auto.
  - cbn. auto.
Qed.

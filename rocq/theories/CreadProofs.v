(** Proofs about reading particles in the C extractor. *)
From Coq Require Import Ascii String.
From Coq Require Import Reals List Bool ZArith Arith Lia Lra.
From Verif Require Import CreadModel CreadSpec.
Import ListNotations.
Local Open Scope R_scope.

(** ** Reading *)

Lemma single_ok : forall g name a n v, block g name [n] v -> get_single g name a n = (n, fill a v).
Proof.
  intros g name a n v (d & G & D & F & Z & Rd & V). unfold get_single. rewrite G, D, F, Z, Rd, V.
  rewrite Nat.ltb_irrefl. reflexivity.
Qed.

Lemma single_k : forall g name a n k b, get_single g name a n = (k, b) -> n = k -> (0 < n)%nat -> exists v, block g name [n] v /\ b = fill a v.
Proof.
  intros g name a n k b H E P. unfold get_single in H. destruct (g name) as [d|] eqn:G; [|injection H; intros; subst; lia].
  destruct (d_dims d) as [|m [|? ?]] eqn:D; try (injection H; intros; subst; lia).
  destruct (negb (Nat.eqb (d_size d) 4) || negb (d_float d) || (n <? m)%nat || negb (d_readable d)) eqn:B;
    [injection H; intros; subst; lia|]. injection H; intros; subst.
  apply orb_false_iff in B as [B B4]. apply orb_false_iff in B as [B B3]. apply orb_false_iff in B as [B1 B2].
  apply negb_false_iff in B1, B2, B4. apply Nat.eqb_eq in B1.
  exists (d_values d). split; [|reflexivity]. exists d. auto 8.
Qed.

Lemma triple_ok : forall g name a n v m, block g name [n; 3%nat] v -> (n <= m)%nat -> get_triple g name a m = (n, fill a v).
Proof.
  intros g name a n v m (d & G & D & F & Z & Rd & V) L. unfold get_triple. rewrite G, D, F, Z, Rd, V.
  replace (m <? n)%nat with false by (symmetry; apply Nat.ltb_ge; lia). reflexivity.
Qed.

Lemma triple_inv : forall g name a m k b, get_triple g name a m = (k, b) ->
  (k = 0%nat /\ b = a) \/ (exists v, block g name [k; 3%nat] v /\ b = fill a v /\ (k <= m)%nat).
Proof.
  intros g name a m k b H. unfold get_triple in H. destruct (g name) as [d|] eqn:G; [|injection H; intros; subst; auto].
  destruct (d_dims d) as [|r [|c [|? ?]]] eqn:D; try (injection H; intros; subst; auto; fail).
  destruct (negb (Nat.eqb (d_size d) 4) || negb (d_float d) || negb (Nat.eqb c 3) || (m <? r)%nat || negb (d_readable d)) eqn:B;
    [injection H; intros; subst; auto|]. injection H; intros; subst.
  apply orb_false_iff in B as [B B4]. apply orb_false_iff in B as [B B3]. apply orb_false_iff in B as [B B5]. apply orb_false_iff in B as [B1 B2].
  apply negb_false_iff in B1, B2, B4, B5. apply Nat.eqb_eq in B1, B5. apply Nat.ltb_ge in B3. subst c.
  right. exists (d_values d). split; [|auto]. exists d. auto 8.
Qed.

Lemma block_length : forall g name n v, sound g -> block g name [n] v -> length v = n.
Proof. intros g name n v W (d & G & D & _ & _ & _ & V). pose proof (W _ _ G) as L. rewrite D, V in L. cbn in L. lia. Qed.

Lemma block3_length : forall g name n v, sound g -> block g name [n; 3%nat] v -> (length v = 3 * n)%nat.
Proof. intros g name n v W (d & G & D & _ & _ & _ & V). pose proof (W _ _ G) as L. rewrite D, V in L. cbn in L. lia. Qed.

(** ** Arrays *)

Lemma at_fill : forall a v i, (i < length v)%nat -> at_ (fill a v) i = Some (nth i v 0).
Proof.
  intros a v i L. unfold at_, fill. rewrite nth_error_app1 by now rewrite map_length.
  rewrite nth_error_map, (nth_error_nth' v 0 L). reflexivity.
Qed.

Lemma at_fresh : forall m i, at_ (fresh m) i = None.
Proof.
  intros m i. unfold at_. destruct (nth_error (fresh m) i) as [x|] eqn:E; [|reflexivity].
  apply nth_error_In in E. unfold fresh in E. apply repeat_spec in E. exact E.
Qed.

Lemma at_none : forall a i, nth_error a i = Some None -> at_ a i = None.
Proof. intros a i E. unfold at_. now rewrite E. Qed.

Lemma fill_length : forall a v, (length v <= length a)%nat -> length (fill a v) = length a.
Proof. intros a v L. unfold fill. rewrite app_length, map_length, skipn_length. lia. Qed.

Lemma nth_error_skip : forall (A : Type) k (l : list A) i, nth_error (skipn k l) i = nth_error l (k + i).
Proof. induction k as [|k IH]; intros l i; [reflexivity|]. destruct l as [|x l]; [destruct i; reflexivity|]. apply IH. Qed.

(** Reading keeps the length of an array, and if it fails its end. *)
Lemma single_length : forall g name a n k b, sound g -> get_single g name a n = (k, b) -> (n <= length a)%nat ->
  length b = length a /\ (n <> k -> (0 < n)%nat -> at_ a (n - 1) = None -> at_ b (n - 1) = None).
Proof.
  intros g name a n k b W H L. unfold get_single in H.
  destruct (g name) as [d|] eqn:G; [|injection H; intros; subst; auto].
  destruct (d_dims d) as [|v [|? ?]] eqn:D; try (injection H; intros; subst; auto; fail).
  destruct (negb (Nat.eqb (d_size d) 4) || negb (d_float d) || (n <? v)%nat || negb (d_readable d)) eqn:B;
    [injection H; intros; subst; auto|]. injection H; intros; subst.
  apply orb_false_iff in B as [B B4]. apply orb_false_iff in B as [B B3]. apply Nat.ltb_ge in B3.
  pose proof (W _ _ G) as LV. rewrite D in LV. cbn in LV. rewrite Nat.mul_1_r in LV.
  split; [rewrite fill_length; lia|]. intros E P N. unfold at_, fill in *.
  rewrite nth_error_app2 by (rewrite map_length; lia). rewrite map_length, LV.
  rewrite nth_error_skip. replace (k + (n - 1 - k))%nat with (n - 1)%nat by lia. exact N.
Qed.

Lemma at_map_first : forall n f a i, (n <= length a)%nat -> (i < n)%nat -> at_ (map_first n f a) i = f (at_ a i).
Proof.
  induction n as [|n IH]; intros f a i L P; [lia|]. destruct a as [|x a]; [cbn in L; lia|].
  destruct i as [|i]; [reflexivity|]. cbn in L. unfold at_. cbn [map_first nth_error]. apply (IH f a i); lia.
Qed.

Lemma map_first_length : forall n f a, length (map_first n f a) = length a.
Proof. induction n as [|n IH]; intros f [|x a]; cbn; auto. Qed.

Lemma at_zip_first : forall n f a b i, (n <= length a)%nat -> (n <= length b)%nat -> (i < n)%nat ->
  at_ (zip_first n f a b) i = f (at_ a i) (at_ b i).
Proof.
  induction n as [|n IH]; intros f a b i L L' P; [lia|]. destruct a as [|x a]; [cbn in L; lia|]. destruct b as [|y b]; [cbn in L'; lia|].
  destruct i as [|i]; [reflexivity|]. cbn in L, L'. unfold at_. cbn [zip_first nth_error]. apply (IH f a b i); lia.
Qed.

(** ** Conversion *)

Lemma convert_spec : forall a h d f, 0 < a -> 0 < h ->
  exists c, convert_density a h (Some d) (Some f) = Some c /\ neutral_column a h d f c.
Proof.
  intros a h d f A H.
  assert (HY : hydrogen a h d (d * (dscale a h * 0.76))).
  { unfold hydrogen, dscale, gadget_mass, gadget_length. field. lra. }
  assert (RS : rscale a h = 3.085678e21 / h * a) by (unfold rscale, gadget_length; field; lra).
  unfold convert_density. set (m := d * (dscale a h * 0.76)) in *.
  unfold physdensthresh. destruct (Rle_dec m 0.12948869200298072) as [L|L].
  - exists (m * f * rscale a h). split; [reflexivity|]. exists m. split; [exact HY|]. left. now rewrite RS.
  - exists (m * rscale a h). split; [reflexivity|]. exists m. split; [exact HY|]. right. rewrite RS. split; [lra|reflexivity].
Qed.

Lemma temp_spec : forall u ne, 0.76 * (0.75 + ne) + 0.25 <> 0 -> gas_temperature 1.3806504e-16 u ne (compute_temp u ne 0.76).
Proof.
  intros u ne N. unfold gas_temperature, compute_temp, tscale.
  replace (0.76 + 0.24 / 4 + ne * 0.76) with (0.76 * (0.75 + ne) + 0.25) by lra.
  set (w := 0.76 * (0.75 + ne) + 0.25) in *. assert (K : 0 < 1.3806504e-16) by lra. assert (M : 0 < 1.67262178e-24) by lra.
  set (k := 1.3806504e-16) in *. set (m := 1.67262178e-24) in *. clearbody w k m. field. lra.
Qed.

(** ** Complete files *)

Lemma block_some : forall g name dims v, block g name dims v -> exists d, g name = Some d.
Proof. intros g name dims v (d & G & _). eauto. Qed.

(** The lengths without the condition on volumes. *)
Definition h_gen (g : group) (n : nat) (hv : list R) : Prop :=
  (g "Volume"%string = None /\ exists s, block g "SmoothingLength" [n] s /\ hv = map (fun x => x / 2) s) \/
  (exists v, block g "Volume" [n] v /\ hv = map (fun x => cpow x 0.33333333) v).

Lemma h_gen_of : forall g n hv, lengths_of g n hv -> h_gen g n hv.
Proof.
  intros g n hv [L|(v & B & P & ->)]; [now left|]. right. exists v. split; [exact B|]. apply map_ext_in. intros x I.
  assert (Q : 0 < x) by (eapply Forall_forall; eauto). unfold cpow. destruct (Rlt_dec 0 x); [reflexivity|contradiction].
Qed.

(** The particles after read_h, if it succeeds. *)
Lemma read_h_ok : forall g n np um p hv, sound g -> h_gen g n hv -> (n <= np)%nat -> length (p_h p) = np -> length (p_dens p) = np ->
  let q := read_h g n np um p in
  p_pos q = p_pos p /\ p_vel q = p_vel p /\ p_u q = p_u p /\ p_ne q = p_ne p /\ p_frac q = p_frac p /\
  (forall i, (i < n)%nat -> at_ (p_h q) i = Some (nth i hv 0)) /\
  (forall i, (i < n)%nat -> at_ (p_dens q) i = if um then olift2 (fun m h => m / h ^ 3) (at_ (p_dens p) i) (Some (nth i hv 0)) else at_ (p_dens p) i).
Proof.
  intros g n np um p hv W HO L LH LD q. subst q. unfold read_h.
  destruct HO as [(V & s & B & ->)|(v & B & ->)].
  - rewrite V, (single_ok _ _ _ _ _ B), Nat.eqb_refl. cbn [negb].
    pose proof (block_length _ _ _ _ W B) as LS.
    assert (AH : forall i, (i < n)%nat -> at_ (map_first n (olift1 (fun v => v / 2)) (fill (p_h p) s)) i = Some (nth i (map (fun x => x / 2) s) 0)).
    { intros i I. rewrite at_map_first by (try rewrite fill_length; lia). rewrite at_fill by lia. cbn.
      f_equal. rewrite (nth_indep (map (fun x => x / 2) s) 0 (0 / 2)) by (rewrite map_length; lia). now rewrite (map_nth (fun x => x / 2)). }
    destruct um; cbn [p_pos p_vel p_u p_ne p_frac p_h p_dens]; repeat split; auto.
    intros i I. rewrite at_zip_first; [|lia|rewrite map_first_length, fill_length; lia|lia]. now rewrite AH.
  - destruct (block_some _ _ _ _ B) as (d & G). rewrite G, (single_ok _ _ _ _ _ B), Nat.eqb_refl. cbn [negb].
    pose proof (block_length _ _ _ _ W B) as LS.
    assert (AH : forall i, (i < n)%nat -> at_ (map_first n (olift1 (fun v => cpow v 0.33333333)) (fill (p_h p) v)) i = Some (nth i (map (fun x => cpow x 0.33333333) v) 0)).
    { intros i I. rewrite at_map_first by (try rewrite fill_length; lia). rewrite at_fill by lia. cbn [olift1 option_map].
      f_equal. rewrite (nth_indep (map (fun x => cpow x 0.33333333) v) 0 (cpow 0 0.33333333)) by (rewrite map_length; lia).
      now rewrite (map_nth (fun x => cpow x 0.33333333)). }
    destruct um; cbn [p_pos p_vel p_u p_ne p_frac p_h p_dens]; repeat split; auto.
    intros i I. rewrite at_zip_first; [|lia|rewrite map_first_length, fill_length; lia|lia]. now rewrite AH.
Qed.

Lemma read_energy_ok : forall g n np um p hv u ne fr, sound g -> (n <= np)%nat -> length (p_h p) = np -> length (p_dens p) = np ->
  block g "InternalEnergy" [n] u -> block g "ElectronAbundance" [n] ne -> block g "NeutralHydrogenAbundance" [n] fr -> h_gen g n hv ->
  let q := read_energy g n np true um p in
  p_pos q = p_pos p /\ p_vel q = p_vel p /\
  (forall i, (i < n)%nat -> at_ (p_u q) i = Some (nth i u 0)) /\ (forall i, (i < n)%nat -> at_ (p_ne q) i = Some (nth i ne 0)) /\
  (forall i, (i < n)%nat -> at_ (p_frac q) i = Some (nth i fr 0)) /\
  (forall i, (i < n)%nat -> at_ (p_h q) i = Some (nth i hv 0)) /\
  (forall i, (i < n)%nat -> at_ (p_dens q) i = if um then olift2 (fun m h => m / h ^ 3) (at_ (p_dens p) i) (Some (nth i hv 0)) else at_ (p_dens p) i).
Proof.
  intros g n np um p hv u ne fr W L LH LD BU BN BF HO q. subst q. unfold read_energy.
  rewrite (single_ok _ _ _ _ _ BU), Nat.eqb_refl. cbn [negb p_ne p_pos p_vel p_dens p_u p_temp p_h p_frac].
  rewrite (single_ok _ _ _ _ _ BN), Nat.eqb_refl. cbn [negb p_ne p_pos p_vel p_dens p_u p_temp p_h p_frac].
  rewrite (single_ok _ _ _ _ _ BF), Nat.eqb_refl. cbn [negb p_ne p_pos p_vel p_dens p_u p_temp p_h p_frac].
  match goal with |- context [read_h g n np um ?p1] =>
    destruct (read_h_ok g n np um p1 hv W HO L LH LD) as (E1 & E2 & E3 & E4 & E5 & E6 & E7) end.
  cbn [p_ne p_pos p_vel p_dens p_u p_temp p_h p_frac] in *.
  rewrite E1, E2, E3, E4, E5.
  pose proof (block_length _ _ _ _ W BU). pose proof (block_length _ _ _ _ W BN). pose proof (block_length _ _ _ _ W BF).
  repeat split; auto; intros i I; apply at_fill; lia.
Qed.

Lemma triple_fill : forall a v i, (3 * i + 2 < length v)%nat ->
  triple (fill a v) i = [Some (nth (3 * i) v 0); Some (nth (3 * i + 1) v 0); Some (nth (3 * i + 2) v 0)].
Proof. intros a v i L. unfold triple. rewrite !at_fill by lia. reflexivity. Qed.

Lemma Forall2_seq : forall {A} (P : nat -> A -> Prop) (f : nat -> A) n, (forall i, (i < n)%nat -> P i (f i)) ->
  Forall2 P (seq 0 n) (map f (seq 0 n)).
Proof.
  intros A P f n H. assert (Q : forall l, (forall i, In i l -> P i (f i)) -> Forall2 P l (map f l)).
  { induction l as [|x l IH]; intros K; cbn; constructor; [apply K; now left|]. apply IH. intros i I. apply K. now right. }
  apply Q. intros i I. apply in_seq in I. apply H. lia.
Qed.

Lemma converted_spec : forall a h n pos vel dens fr u ne hv p, 0 < a -> 0 < h ->
  (length pos = 3 * n)%nat -> (length vel = 3 * n)%nat ->
  (forall i, (i < n)%nat -> 0.76 * (0.75 + nth i ne 0) + 0.25 <> 0) ->
  (exists b, p_pos p = fill b pos) -> (exists b, p_vel p = fill b vel) ->
  (forall i, (i < n)%nat -> at_ (p_dens p) i = Some (dens i)) ->
  (forall i, (i < n)%nat -> at_ (p_frac p) i = Some (nth i fr 0)) ->
  (forall i, (i < n)%nat -> at_ (p_u p) i = Some (nth i u 0)) ->
  (forall i, (i < n)%nat -> at_ (p_ne p) i = Some (nth i ne 0)) ->
  (forall i, (i < n)%nat -> at_ (p_h p) i = Some (nth i hv 0)) ->
  Forall2 (fun i g => particle a h pos vel i (dens i) (nth i fr 0) (nth i u 0) (nth i ne 0) (nth i hv 0) g) (seq 0 n) (converted a h (Z.of_nat n) p).
Proof.
  intros a h n pos vel dens fr u ne hv p A H LP LV NE (b & EP) (b' & EV) ED EF EU EN EH.
  unfold converted. rewrite Nat2Z.id. apply Forall2_seq. intros i I. unfold particle. cbn [g_pos g_vel g_col g_temp g_h].
  rewrite EP, EV, ED, EF, EU, EN, EH, !triple_fill by lia.
  repeat split.
  - exact (convert_spec a h (dens i) (nth i fr 0) A H).
  - eexists. split; [reflexivity|]. apply temp_spec. auto.
Qed.

Lemma C86_complete_aux : forall a h hd g n pos vel dens u ne fr hv, 0 < a -> 0 < h -> sound g ->
  h_cooling hd = true -> (0 < n <= h_npart hd)%nat ->
  block g "Coordinates" [n; 3%nat] pos -> block g "Velocities" [n; 3%nat] vel ->
  block g "InternalEnergy" [n] u -> block g "ElectronAbundance" [n] ne -> Forall (fun x => 0 <= x) ne ->
  block g "NeutralHydrogenAbundance" [n] fr -> lengths_of g n hv -> densities_of (h_mass hd) g n hv dens ->
  exists l, extract_file a h (mkSnap (Some hd) (Some g)) = Some l /\
    Forall2 (fun i p => particle a h pos vel i (nth i dens 0) (nth i fr 0) (nth i u 0) (nth i ne 0) (nth i hv 0) p) (seq 0 n) l.
Proof.
  intros a h hd g n pos vel dens u ne fr hv A H W C N BP BV BU BN NN BF HO DO. apply h_gen_of in HO.
  assert (NE : forall i, 0.76 * (0.75 + nth i ne 0) + 0.25 <> 0).
  { intros i. assert (0 <= nth i ne 0); [|lra]. destruct (Nat.lt_ge_cases i (length ne)).
    - eapply Forall_forall; [exact NN|]. now apply nth_In.
    - rewrite nth_overflow by lia. lra. }
  pose proof (block3_length _ _ _ _ W BP) as LP. pose proof (block3_length _ _ _ _ W BV) as LV.
  destruct DO as (LD & DO).
  unfold extract_file, load_snapshot. cbn [s_header s_gas]. unfold read_gas.
  rewrite (triple_ok _ _ _ _ _ _ BP) by lia. destruct (Nat.eqb_spec n 0); [lia|].
  cbn [alloc_parts p_ne p_pos p_vel p_dens p_u p_temp p_h p_frac].
  rewrite (triple_ok _ _ _ _ _ _ BV) by lia. rewrite Nat.eqb_refl. cbn [negb p_ne p_pos p_vel p_dens p_u p_temp p_h p_frac].
  rewrite C.
  assert (FIN : forall (um : bool) (b : array), length b = h_npart hd ->
    (forall i, (i < n)%nat -> (if um then olift2 (fun m h => m / h ^ 3) (at_ b i) (Some (nth i hv 0)) else at_ b i) = Some (nth i dens 0)) ->
    Forall2 (fun i p => particle a h pos vel i (nth i dens 0) (nth i fr 0) (nth i u 0) (nth i ne 0) (nth i hv 0) p) (seq 0 n)
      (converted a h (Z.of_nat n) (read_energy g n (h_npart hd) true um
         (mkParts (fill (fresh (3 * h_npart hd)) pos) (fill (fresh (3 * h_npart hd)) vel) b (fresh (h_npart hd)) (fresh (h_npart hd))
            (fresh (h_npart hd)) (fresh (h_npart hd)) (fresh (h_npart hd)))))).
  { intros um b LB EB.
    match goal with |- context [read_energy g n _ true um ?p1] =>
      destruct (read_energy_ok g n (h_npart hd) um p1 hv u ne fr W) as (E1 & E2 & E3 & E4 & E5 & E6 & E7);
        cbn [p_ne p_pos p_vel p_dens p_u p_temp p_h p_frac]; auto; try lia; [apply repeat_length|] end.
    cbn [p_ne p_pos p_vel p_dens p_u p_temp p_h p_frac] in *.
    apply (converted_spec a h n pos vel (fun i => nth i dens 0) fr u ne hv); auto; eauto.
    intros i I. rewrite E7 by exact I. auto. }
  assert (LF : length (fresh (h_npart hd)) = h_npart hd) by apply repeat_length.
  destruct DO as [(M & BD)|[(M & ND & m & BM & EM)|(M & EM)]].
  - destruct (Req_EM_T (h_mass hd) 0); [|contradiction].
    rewrite (single_ok _ _ _ _ _ BD), Nat.eqb_refl. eexists. split; [reflexivity|]. apply FIN.
    + rewrite fill_length; lia.
    + intros i I. apply at_fill. lia.
  - destruct (Req_EM_T (h_mass hd) 0); [|contradiction].
    destruct (get_single g "Density" (fresh (h_npart hd)) n) as [k b] eqn:G.
    destruct (Nat.eqb_spec n k) as [E|E].
    { exfalso. apply ND. destruct (single_k _ _ _ _ _ _ G E) as (v & B & _); [lia|]. now exists v. }
    rewrite (single_ok _ _ _ _ _ BM), Nat.eqb_refl. eexists. split; [reflexivity|]. cbn [negb p_ne p_pos p_vel p_dens p_u p_temp p_h p_frac].
    pose proof (block_length _ _ _ _ W BM) as LM.
    destruct (single_length g "Density" (fresh (h_npart hd)) n k b W G) as (LB & _); [lia|].
    apply FIN.
    + rewrite fill_length; lia.
    + intros i I. rewrite at_fill by lia. cbn. now rewrite EM.
  - destruct (Req_EM_T (h_mass hd) 0); [contradiction|].
    eexists. split; [reflexivity|]. apply FIN.
    + now rewrite map_first_length.
    + intros i I. rewrite at_map_first by lia. now rewrite EM.
Qed.

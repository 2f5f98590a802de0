(** When the numbers used by the C extractor have been read. *)
From Coq Require Import Ascii String.
From Coq Require Import Reals List Bool ZArith Arith Lia Lra.
From Verif Require Import CreadModel CreadSpec CreadProofs.
Import ListNotations.
Local Open Scope R_scope.

Ltac pcbn := cbn [alloc_parts negb p_ne p_pos p_vel p_dens p_u p_temp p_h p_frac].

Lemma read_gas_fst : forall g hd, fst (read_gas g hd) = fst (get_triple g "Coordinates" (fresh (3 * h_npart hd)) (h_npart hd)).
Proof.
  intros g hd. unfold read_gas. pcbn.
  destruct (get_triple g "Coordinates" (fresh (3 * h_npart hd)) (h_npart hd)) as [n pos].
  destruct (Nat.eqb n 0); [reflexivity|]. destruct (get_triple g "Velocities" (fresh (3 * h_npart hd)) n) as [k vel].
  destruct (negb (Nat.eqb n k)); [reflexivity|]. destruct (Req_EM_T (h_mass hd) 0); [|reflexivity]. pcbn.
  destruct (get_single g "Density" (fresh (h_npart hd)) n) as [k1 d]. destruct (Nat.eqb n k1); [reflexivity|].
  destruct (get_single g "Masses" d n) as [k2 d2]. destruct (negb (Nat.eqb n k2)); reflexivity.
Qed.

Lemma extract_some : forall a h hd g, exists l, extract_file a h (mkSnap (Some hd) (Some g)) = Some l /\
  l = converted a h (Z.of_nat (fst (read_gas g hd))) (snd (read_gas g hd)) /\ length l = fst (read_gas g hd).
Proof.
  intros a h hd g. unfold extract_file, load_snapshot. cbn [s_header s_gas]. destruct (read_gas g hd) as [n p]. cbn [fst snd].
  eexists. split; [reflexivity|]. split; [reflexivity|]. unfold converted. rewrite map_length, seq_length. lia.
Qed.

Lemma C86_count_aux : forall a h hd g, exists l, extract_file a h (mkSnap (Some hd) (Some g)) = Some l /\
  ((0 < length l)%nat -> has_block g "Coordinates" [length l; 3%nat] /\ (length l <= h_npart hd)%nat) /\
  (forall n, has_block g "Coordinates" [n; 3%nat] -> (n <= h_npart hd)%nat -> length l = n).
Proof.
  intros a h hd g. destruct (extract_some a h hd g) as (l & E & _ & L). exists l. split; [exact E|]. rewrite L, read_gas_fst.
  destruct (get_triple g "Coordinates" (fresh (3 * h_npart hd)) (h_npart hd)) as [n b] eqn:G. cbn [fst]. split.
  - intros P. destruct (triple_inv _ _ _ _ _ _ G) as [(Z & _)|(v & B & _ & Q)]; [lia|]. split; [now exists v|exact Q].
  - intros m (v & B) Q. rewrite (triple_ok _ _ _ _ _ (h_npart hd) B Q) in G. injection G. auto.
Qed.

Lemma triple_bad : forall g name m n k b, sound g -> get_triple g name (fresh m) n = (k, b) -> n <> k -> (0 < n)%nat ->
  at_ b (3 * (n - 1) + 2) = None.
Proof.
  intros g name m n k b W G E P. destruct (triple_inv _ _ _ _ _ _ G) as [(-> & ->)|(v & B & -> & Q)]; [apply at_fresh|].
  pose proof (block3_length _ _ _ _ W B) as L. unfold at_, fill.
  rewrite nth_error_app2 by (rewrite map_length; lia). rewrite map_length, nth_error_skip.
  replace (length v + (3 * (n - 1) + 2 - length v))%nat with (3 * (n - 1) + 2)%nat by lia. apply (at_fresh m).
Qed.

Lemma read_h_ne : forall g n np um p, p_ne (read_h g n np um p) = p_ne p.
Proof.
  intros. unfold read_h. destruct (g "Volume"%string).
  - destruct (get_single g "Volume" (p_h p) n) as [k h]. destruct (negb (Nat.eqb n k)); [reflexivity|]. now destruct um.
  - destruct (get_single g "SmoothingLength" (p_h p) n) as [k h]. destruct (negb (Nat.eqb n k)); [reflexivity|]. now destruct um.
Qed.

Section Last.
Context (a h : R) (g : group) (n np : nat) (W : sound g) (N : (0 < n <= np)%nat).

(** The last particle is determinate. *)
Definition good (p : parts) : Prop :=
  at_ (p_vel p) (3 * (n - 1) + 2) <> None /\ at_ (p_dens p) (n - 1) <> None /\ at_ (p_u p) (n - 1) <> None /\
  at_ (p_ne p) (n - 1) <> None /\ at_ (p_h p) (n - 1) <> None.

Lemma last_good : forall p, Forall determinate (converted a h (Z.of_nat n) p) -> good p.
Proof using N.
  intros p F. rewrite Forall_forall in F. unfold converted in F. rewrite Nat2Z.id in F.
  assert (D : determinate (mkUsed (triple (p_pos p) (n - 1)) (triple (p_vel p) (n - 1))
                 (convert_density a h (at_ (p_dens p) (n - 1)) (at_ (p_frac p) (n - 1)))
                 (olift2 (fun u ne => compute_temp u ne 0.76) (at_ (p_u p) (n - 1)) (at_ (p_ne p) (n - 1)))
                 (at_ (p_h p) (n - 1)))).
  { apply F. apply in_map_iff. exists (n - 1)%nat. split; [reflexivity|]. apply in_seq. lia. }
  destruct D as (_ & V & C & T & Hh). cbn [g_vel g_col g_temp g_h] in *. repeat split.
  - apply V. unfold triple. cbn. auto.
  - intros E. rewrite E in C. now apply C.
  - intros E. rewrite E in T. now apply T.
  - intros E. rewrite E in T. destruct (at_ (p_u p) (n - 1)); now apply T.
  - exact Hh.
Qed.

Lemma h_need : forall um p, p_h p = fresh np -> at_ (p_h (read_h g n np um p)) (n - 1) <> None ->
  match g "Volume"%string with Some _ => has_block g "Volume" [n] | None => has_block g "SmoothingLength" [n] end.
Proof using W N.
  intros um p E. unfold read_h.
  assert (L : length (p_h p) = np) by (rewrite E; apply repeat_length).
  assert (A0 : at_ (p_h p) (n - 1) = None) by (rewrite E; apply at_fresh).
  destruct (g "Volume"%string) as [d|] eqn:V.
  - destruct (get_single g "Volume" (p_h p) n) as [k b] eqn:G. destruct (Nat.eqb_spec n k) as [K|K]; cbn [negb].
    + intros _. destruct (single_k _ _ _ _ _ _ G K) as (v & B & _); [lia|now exists v].
    + cbn [p_h]. intros Q. exfalso. apply Q. destruct (single_length _ _ _ _ _ _ W G) as (_ & X); [lia|]. apply X; auto; lia.
  - destruct (get_single g "SmoothingLength" (p_h p) n) as [k b] eqn:G. destruct (Nat.eqb_spec n k) as [K|K]; cbn [negb].
    + intros _. destruct (single_k _ _ _ _ _ _ G K) as (v & B & _); [lia|now exists v].
    + cbn [p_h]. intros Q. exfalso. apply Q. destruct (single_length _ _ _ _ _ _ W G) as (_ & X); [lia|]. apply X; auto; lia.
Qed.

Lemma energy_need : forall c um p, good (read_energy g n np c um p) ->
  p_u p = fresh np -> p_ne p = fresh np -> p_h p = fresh np -> p_frac p = fresh np -> c = true /\ has_block g "InternalEnergy" [n] /\ has_block g "ElectronAbundance" [n] /\
  has_block g "NeutralHydrogenAbundance" [n] /\
  match g "Volume"%string with Some _ => has_block g "Volume" [n] | None => has_block g "SmoothingLength" [n] end.
Proof using W N.
  intros c um p (_ & _ & GU & GN & GH) EU EN EH EF. unfold read_energy in *.
  assert (LF : length (fresh np) = np) by apply repeat_length.
  destruct (get_single g "InternalEnergy" (p_u p) n) as [k u] eqn:G1. rewrite EU in G1.
  destruct (Nat.eqb_spec n k) as [K|K]; cbn [negb] in *.
  2:{ exfalso. apply GU. destruct (single_length _ _ _ _ _ _ W G1) as (_ & X); [lia|]. apply X; auto; [lia|apply at_fresh]. }
  destruct (single_k _ _ _ _ _ _ G1 K) as (v1 & B1 & _); [lia|].
  destruct c; [|exfalso; apply GN; rewrite read_h_ne; cbn [p_ne]; rewrite EN; apply at_fresh].
  cbn [alloc_parts negb p_ne p_pos p_vel p_dens p_u p_temp p_h p_frac] in *.
  destruct (get_single g "ElectronAbundance" (p_ne p) n) as [k2 ne] eqn:G2. rewrite EN in G2.
  destruct (Nat.eqb_spec n k2) as [K2|K2]; cbn [negb] in *.
  2:{ exfalso. apply GN. destruct (single_length _ _ _ _ _ _ W G2) as (_ & X); [lia|]. apply X; auto; [lia|apply at_fresh]. }
  destruct (single_k _ _ _ _ _ _ G2 K2) as (v2 & B2 & _); [lia|].
  cbn [alloc_parts negb p_ne p_pos p_vel p_dens p_u p_temp p_h p_frac] in *.
  destruct (get_single g "NeutralHydrogenAbundance" (p_frac p) n) as [k3 fr] eqn:G3. rewrite EF in G3.
  destruct (Nat.eqb_spec n k3) as [K3|K3]; cbn [negb] in *.
  2:{ exfalso. apply GH. cbn [p_h]. rewrite EH. apply at_fresh. }
  destruct (single_k _ _ _ _ _ _ G3 K3) as (v3 & B3 & _); [lia|].
  split; [reflexivity|]. split; [now exists v1|]. split; [now exists v2|]. split; [now exists v3|].
  eapply h_need; [|exact GH]. exact EH.
Qed.
End Last.

Lemma some_converted : forall a h n p, (0 <= n)%nat ->
  (forall i, (i < n)%nat -> (forall j, (j < 3)%nat -> at_ (p_pos p) (3 * i + j) <> None) /\ (forall j, (j < 3)%nat -> at_ (p_vel p) (3 * i + j) <> None) /\
     at_ (p_dens p) i <> None /\ at_ (p_frac p) i <> None /\ at_ (p_u p) i <> None /\ at_ (p_ne p) i <> None /\ at_ (p_h p) i <> None) ->
  Forall determinate (converted a h (Z.of_nat n) p).
Proof.
  intros a h n p _ S. apply Forall_forall. intros x I. unfold converted in I. rewrite Nat2Z.id in I.
  apply in_map_iff in I as (i & <- & I). apply in_seq in I. destruct (S i ltac:(lia)) as (S1 & S2 & S3 & S4 & S5 & S6 & S7).
  assert (T : forall b, (forall j, (j < 3)%nat -> at_ b (3 * i + j) <> None) -> forall x, In x (triple b i) -> x <> None).
  { intros b Q y J. unfold triple in J. replace (3 * i)%nat with (3 * i + 0)%nat in J at 1 by lia.
    destruct J as [<-|[<-|[<-|[]]]]; apply Q; lia. }
  unfold determinate. cbn [g_pos g_vel g_col g_temp g_h]. split; [apply T, S1|]. split; [apply T, S2|]. split; [|split; [|exact S7]].
  - unfold convert_density. destruct (at_ (p_dens p) i); [|contradiction]. destruct (at_ (p_frac p) i); [|contradiction].
    cbv beta iota zeta. match goal with |- context [Rle_dec ?x ?y] => destruct (Rle_dec x y) end; discriminate.
  - destruct (at_ (p_u p) i); [|contradiction]. destruct (at_ (p_ne p) i); [discriminate|contradiction].
Qed.

Lemma gen_lengths : forall g n, match g "Volume"%string with Some _ => has_block g "Volume" [n] | None => has_block g "SmoothingLength" [n] end ->
  exists hv, h_gen g n hv.
Proof.
  intros g n B. destruct (g "Volume"%string) as [d|] eqn:V.
  - destruct B as (v & B). eexists. right. exists v. split; [exact B|reflexivity].
  - destruct B as (v & B). eexists. left. split; [exact V|]. exists v. split; [exact B|reflexivity].
Qed.

Lemma C86_determinate_aux : forall a h hd g l, sound g -> extract_file a h (mkSnap (Some hd) (Some g)) = Some l ->
  (Forall determinate l <-> l = [] \/ (h_cooling hd = true /\ blocks_present (h_mass hd) g (length l))).
Proof.
  intros a h hd g l W E. destruct (extract_some a h hd g) as (l' & E' & EL & LL). rewrite E in E'. injection E' as <-.
  destruct (read_gas g hd) as [n p] eqn:RG. cbn [fst snd] in *. rewrite LL.
  assert (CO : forall m, n = S m -> exists pos, block g "Coordinates" [n; 3%nat] pos /\ (n <= h_npart hd)%nat).
  { intros m NM. destruct (C86_count_aux a h hd g) as (l2 & E2 & Q & _). rewrite E in E2. injection E2 as <-. rewrite LL in Q.
    destruct Q as ((v & B) & Q); [lia|]. exists v. auto. }
  destruct n as [|n'].
  { assert (L0 : l = []) by (destruct l; [reflexivity|discriminate]). rewrite L0. split; auto. }
  destruct (CO n' eq_refl) as (pos & BP & NP). set (n := S n') in *. assert (N : (0 < n <= h_npart hd)%nat) by lia. clearbody n.
  assert (LN : l <> []) by (intros ->; cbn in LL; lia).
  assert (LF : length (fresh (h_npart hd)) = h_npart hd) by apply repeat_length.
  unfold read_gas in RG. rewrite (triple_ok _ _ _ _ _ _ BP NP) in RG.
  destruct (Nat.eqb_spec n 0); [lia|]. cbn [alloc_parts negb p_ne p_pos p_vel p_dens p_u p_temp p_h p_frac] in RG.
  split.
  - intros F. right. rewrite EL in F. pose proof (last_good a h n (h_npart hd) N p F) as GD.
    destruct (get_triple g "Velocities" (fresh (3 * h_npart hd)) n) as [k vel] eqn:GV.
    destruct (Nat.eqb_spec n k) as [K|K]; cbn [negb] in RG.
    2:{ exfalso. injection RG as EP. rewrite <- EP in GD. destruct GD as (GD & _). apply GD. cbn [p_vel]. eapply triple_bad; eauto. lia. }
    assert (BV : has_block g "Velocities" [n; 3%nat]).
    { destruct (triple_inv _ _ _ _ _ _ GV) as [(Z & _)|(v & B & _)]; [lia|]. rewrite <- K in B. now exists v. }
    destruct (Req_EM_T (h_mass hd) 0) as [M|M].
    + cbn [p_dens] in RG. destruct (get_single g "Density" (fresh (h_npart hd)) n) as [k1 d1] eqn:G1.
      destruct (Nat.eqb_spec n k1) as [K1|K1].
      * destruct (single_k _ _ _ _ _ _ G1 K1) as (v1 & B1 & _); [lia|].
        injection RG as EP. rewrite <- EP in GD. destruct (energy_need g n (h_npart hd) W N _ _ _ GD eq_refl eq_refl eq_refl eq_refl) as (C & Q).
        split; [exact C|]. unfold blocks_present. split; [exact BV|]. split; [right; left; now exists v1|exact Q].
      * destruct (single_length _ _ _ _ _ _ W G1) as (L1 & X1); [lia|].
        destruct (get_single g "Masses" d1 n) as [k2 d2] eqn:G2. destruct (Nat.eqb_spec n k2) as [K2|K2]; cbn [negb] in RG.
        -- destruct (single_k _ _ _ _ _ _ G2 K2) as (v2 & B2 & _); [lia|].
           injection RG as EP. rewrite <- EP in GD. destruct (energy_need g n (h_npart hd) W N _ _ _ GD eq_refl eq_refl eq_refl eq_refl) as (C & Q).
           split; [exact C|]. unfold blocks_present. split; [exact BV|]. split; [right; right; now exists v2|exact Q].
        -- exfalso. injection RG as EP. rewrite <- EP in GD. destruct GD as (_ & GD & _). apply GD. cbn [p_dens].
           destruct (single_length _ _ _ _ _ _ W G2) as (_ & X2); [lia|]. apply X2; [lia|lia|]. apply X1; [lia|lia|apply at_fresh].
    + injection RG as EP. rewrite <- EP in GD. destruct (energy_need g n (h_npart hd) W N _ _ _ GD eq_refl eq_refl eq_refl eq_refl) as (C & Q).
      split; [exact C|]. unfold blocks_present. split; [exact BV|]. split; [now left|exact Q].
  - intros [L0|(C & (vel & BV) & DB & (u & BU) & (ne & BN) & (fr & BF) & BH)]; [contradiction|].
    destruct (gen_lengths g n BH) as (hv & HO). rewrite EL.
    pose proof (block3_length _ _ _ _ W BP) as LP. pose proof (block3_length _ _ _ _ W BV) as LV.
    rewrite (triple_ok _ _ _ _ _ _ BV (Nat.le_refl n)), Nat.eqb_refl in RG. cbn [negb p_dens] in RG. rewrite C in RG.
    assert (FIN : forall (um : bool) (b : array) q, length b = h_npart hd -> (forall i, (i < n)%nat -> at_ b i <> None) ->
      q = read_energy g n (h_npart hd) true um
         (mkParts (fill (fresh (3 * h_npart hd)) pos) (fill (fresh (3 * h_npart hd)) vel) b (fresh (h_npart hd)) (fresh (h_npart hd))
            (fresh (h_npart hd)) (fresh (h_npart hd)) (fresh (h_npart hd))) ->
      Forall determinate (converted a h (Z.of_nat n) q)).
    { intros um b q LB EB EQ.
      destruct (read_energy_ok g n (h_npart hd) um (mkParts (fill (fresh (3 * h_npart hd)) pos) (fill (fresh (3 * h_npart hd)) vel) b (fresh (h_npart hd))
            (fresh (h_npart hd)) (fresh (h_npart hd)) (fresh (h_npart hd)) (fresh (h_npart hd))) hv u ne fr W) as (E1 & E2 & E3 & E4 & E5 & E6 & E7); auto.
      rewrite <- EQ in *. cbn [p_ne p_pos p_vel p_dens p_u p_temp p_h p_frac] in *.
      apply some_converted; [lia|]. intros i I. rewrite E1, E2, E3, E4, E5, E6, E7 by exact I.
      repeat split; try discriminate.
      - intros j J. rewrite at_fill by lia. discriminate.
      - intros j J. rewrite at_fill by lia. discriminate.
      - specialize (EB i I). destruct um; [|exact EB]. destruct (at_ b i); [discriminate|contradiction]. }
    destruct (Req_EM_T (h_mass hd) 0) as [M|M].
    + destruct (get_single g "Density" (fresh (h_npart hd)) n) as [k1 d1] eqn:G1.
      destruct (single_length _ _ _ _ _ _ W G1) as (L1 & _); [lia|].
      destruct (Nat.eqb_spec n k1) as [K1|K1].
      * destruct (single_k _ _ _ _ _ _ G1 K1) as (v1 & B1 & ->); [lia|]. pose proof (block_length _ _ _ _ W B1) as LB1.
        injection RG as EP. eapply FIN; [exact (eq_trans L1 LF)| |symmetry; exact EP]. intros i I. rewrite at_fill by lia. discriminate.
      * assert (BM : has_block g "Masses" [n]).
        { destruct DB as [Q|[(v & B)|Q]]; [contradiction| |exact Q]. rewrite (single_ok _ _ _ _ _ B) in G1. injection G1. intros. lia. }
        destruct BM as (m & BM). rewrite (single_ok _ _ _ _ _ BM), Nat.eqb_refl in RG. cbn [negb] in RG. pose proof (block_length _ _ _ _ W BM) as LM.
        injection RG as EP. eapply FIN; [|  |symmetry; exact EP]; cbn [p_dens].
        -- rewrite fill_length; lia.
        -- intros i I. rewrite at_fill by lia. discriminate.
    + injection RG as EP. eapply FIN; [|  |symmetry; exact EP].
      * now rewrite map_first_length.
      * intros i I. rewrite at_map_first by lia. discriminate.
Qed.

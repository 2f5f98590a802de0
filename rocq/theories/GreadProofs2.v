(** Gadget binary snapshots: agreement with HDF5, blocks that are missing. *)
From Coq Require Import Ascii String.
From Coq Require Import Reals List Bool ZArith Arith Lia Lra.
From Verif Require Import CreadModel CreadSpec CreadProofs CreadProofs2 CreadProofs3 GreadModel GreadSpec GreadProofs.
Import ListNotations.
Local Open Scope R_scope.

Lemma hydrogen_fun : forall a h d n n', 0 < a -> 0 < h -> hydrogen a h d n -> hydrogen a h d n' -> n = n'.
Proof.
  intros a h d n n' A H E E'. unfold hydrogen in E, E'. rewrite <- E' in E. clear E'.
  assert (P : 0 < (3.085678e21 / h * a) ^ 3). { apply pow_lt. apply Rmult_lt_0_compat; [|exact A]. unfold Rdiv. apply Rmult_lt_0_compat; [lra|]. now apply Rinv_0_lt_compat. }
  set (q := (3.085678e21 / h * a) ^ 3) in *. clearbody q.
  apply Rmult_eq_reg_r in E; [|lra]. lra.
Qed.

Lemma particle_fun : forall a h pos vel i d f u ne len g g', 0 < a -> 0 < h -> 0 <= ne ->
  particle a h pos vel i d f u ne len g -> particle a h pos vel i d f u ne len g' -> g = g'.
Proof.
  intros a h pos vel i d f u ne len [p v c t l] [p' v' c' t' l'] A H NE (P1 & P2 & (x & P3 & P4) & (y & P5 & P6) & P7) (Q1 & Q2 & (x' & Q3 & Q4) & (y' & Q5 & Q6) & Q7).
  cbn [g_pos g_vel g_col g_temp g_h] in *.
  assert (XX : x = x').
  { destruct P4 as (n & HN & C). destruct Q4 as (n' & HN' & C'). rewrite <- (hydrogen_fun a h d n n' A H HN HN') in C'. destruct C as [(C1 & ->)|(C1 & ->)]; destruct C' as [(C2 & ->)|(C2 & ->)]; auto; lra. }
  assert (YY : y = y').
  { unfold gas_temperature in P6, Q6. rewrite P6 in Q6. assert (W : 0 < 0.76 + 0.24 / 4 + ne * 0.76) by lra. set (w := 0.76 + 0.24 / 4 + ne * 0.76) in *. clearbody w.
    assert (0 < w / 1.67262178e-24). { apply Rmult_lt_0_compat; [exact W|]. apply Rinv_0_lt_compat. lra. }
    apply Rmult_eq_reg_l in Q6; lra. }
  congruence.
Qed.

Lemma forall2_fun : forall (A B : Type) (P : A -> B -> Prop) (l : list A) (m m' : list B), (forall x y y', In x l -> P x y -> P x y' -> y = y') ->
  Forall2 P l m -> Forall2 P l m' -> m = m'.
Proof.
  intros A B P l. induction l as [|x l IH]; intros m m' F H H'; inversion H; inversion H'; subst; [reflexivity|].
  f_equal; [eapply F; eauto; now left|]. apply IH; auto. intros z y1 y2 I. apply F. now right.
Qed.

Lemma f2len : forall (A B : Type) (P : A -> B -> Prop) l m, Forall2 P l m -> length l = length m.
Proof. intros A B P l m F. induction F; cbn; congruence. Qed.

Lemma in7 : forall (A : Type) (a b c d e f g : A), In a [a; b; c; d; e; f; g] /\ In b [a; b; c; d; e; f; g] /\ In c [a; b; c; d; e; f; g] /\
  In d [a; b; c; d; e; f; g] /\ In e [a; b; c; d; e; f; g] /\ In f [a; b; c; d; e; f; g] /\ In g [a; b; c; d; e; f; g].
Proof. intros. cbn. tauto. Qed.

Lemma C123_agree_aux : forall n hd g s rho, (0 < n)%nat -> sound g -> same_gas n hd g s -> g_block s "RHO " = Some rho -> uniform n rho ->
  0 < g_time s -> 0 < g_hubble s -> (forall ne, g_block s "NE  " = Some ne -> Forall (fun x => 0 <= x) ne) ->
  exists l p, extract_file (g_time s) (g_hubble s) (mkSnap (Some hd) (Some g)) = Some l /\ length l = n /\
    load_snapshot false s = Loaded n p /\ converted (g_time s) (g_hubble s) (Z.of_nat n) p = l.
Proof.
  intros n hd g s rho N W (HN & HM & HC & NS & GC & VO & ALL) RHO UN A H NE.
  match type of ALL with forall _ _ _, In _ [?a; ?b; ?c; ?d; ?e; ?f; ?g] -> _ => destruct (in7 _ a b c d e f g) as (I1 & I2 & I3 & I4 & I5 & I6 & I7) end.
  destruct (ALL _ _ _ I1) as (pos & B1 & S1). destruct (ALL _ _ _ I2) as (vel & B2 & S2). destruct (ALL _ _ _ I3) as (rho' & B3 & S3).
  destruct (ALL _ _ _ I4) as (u & B4 & S4). destruct (ALL _ _ _ I5) as (ne & B5 & S5). destruct (ALL _ _ _ I6) as (fr & B6 & S6).
  destruct (ALL _ _ _ I7) as (len & B7 & S7). clear ALL I1 I2 I3 I4 I5 I6 I7.
  rewrite RHO in S3. injection S3 as <-.
  pose proof (block3_length _ _ _ _ W B1) as L1. pose proof (block3_length _ _ _ _ W B2) as L2. pose proof (block_length _ _ _ _ W B3) as L3.
  pose proof (block_length _ _ _ _ W B4) as L4. pose proof (block_length _ _ _ _ W B5) as L5. pose proof (block_length _ _ _ _ W B6) as L6.
  pose proof (block_length _ _ _ _ W B7) as L7.
  destruct (C86_complete_aux (g_time s) (g_hubble s) hd g n pos vel rho u ne fr (map (fun x => x / 2) len)) as (l & E & F); auto; try lia.
  { left. split; [exact VO|]. exists len. auto. }
  { split; [exact L3|]. left. auto. }
  assert (NE' : forall i, (i < n_gas s)%nat -> 0 <= nth i ne 0).
  { intros i I. pose proof (NE ne S5) as F5. rewrite Forall_forall in F5. apply F5. apply nth_In. lia. }
  destruct (load_complete false s pos vel rho u ne fr len) as (p & LO & PA); auto.
  { unfold complete, electrons_of, holds. rewrite NS. repeat split; auto; lia. }
  { now rewrite NS. }
  rewrite NS in LO, PA. unfold particles_of in PA. rewrite NS in PA.
  exists l, p. split; [exact E|]. split; [rewrite <- (f2len _ _ _ _ _ F); apply seq_length|]. split; [exact LO|].
  eapply forall2_fun; [|exact PA|].
  - intros i x y I X Y. apply in_seq in I. refine (particle_fun _ _ _ _ _ _ _ _ _ _ _ _ A H _ X Y). apply NE'. lia.
  - assert (IN : forall i, In i (seq 0 n) -> nth i (map (fun x => x / 2) len) 0 = nth i len 0 / 2).
    { intros i I. apply in_seq in I. rewrite (nth_indep _ 0 (0 / 2)) by (rewrite map_length; lia). apply (map_nth (fun x => x / 2)). }
    clear E. revert F IN. generalize (seq 0 n). intros q F. induction F as [|i x q' l' X F IH]; intros IN; constructor.
    + rewrite <- IN by now left. exact X.
    + apply IH. intros j J. apply IN. now right.
Qed.

Lemma loaded_parts : forall split s n p, load_snapshot split s = Loaded n p ->
  (0 < n_gas s)%nat /\ n = n_gas s /\ p_pos p = get_block s "POS " 3 (n_gas s) (fresh (3 * n_gas s)) /\
  p_vel p = get_block s "VEL " 3 (n_gas s) (fresh (3 * n_gas s)) /\ p_dens p = get_block s "RHO " 1 (n_gas s) (fresh (n_gas s)) /\
  p_u p = get_block s "U   " 1 (n_gas s) (fresh (n_gas s)) /\
  p_ne p = (if g_cooling s then fst (read_electrons split s (n_gas s) (fresh (n_gas s)) (fresh (n_gas s))) else fresh (n_gas s)) /\
  p_frac p = (if g_cooling s then get_block s "NH  " 1 (n_gas s) (fresh (n_gas s)) else fresh (n_gas s)) /\
  p_h p = map_first (n_gas s) (olift1 (fun x => x / 2)) (get_block s "HSML" 1 (n_gas s)
    (if g_cooling s then snd (read_electrons split s (n_gas s) (fresh (n_gas s)) (fresh (n_gas s))) else fresh (n_gas s))).
Proof.
  intros split s n p E. unfold load_snapshot in E. destruct (Nat.eqb_spec (n_gas s) 0) as [|N0]; [discriminate|].
  cbn [alloc_parts p_pos p_vel p_dens p_u p_ne p_temp p_h p_frac] in E. destruct (compare _ _ _); try discriminate.
  split; [lia|]. destruct (g_cooling s).
  - destruct (read_electrons split s (n_gas s) (fresh (n_gas s)) (fresh (n_gas s))) as [ne h]. injection E as <- <-. repeat split.
  - injection E as <- <-. repeat split.
Qed.

Lemma last_pos : forall a h n p, (0 < n)%nat -> Forall determinate (converted a h (Z.of_nat n) p) -> at_ (p_pos p) (3 * (n - 1) + 2) <> None.
Proof.
  intros a h n p N F. rewrite Forall_forall in F. unfold converted in F. rewrite Nat2Z.id in F.
  assert (D : determinate (mkUsed (triple (p_pos p) (n - 1)) (triple (p_vel p) (n - 1))
                 (convert_density a h (at_ (p_dens p) (n - 1)) (at_ (p_frac p) (n - 1)))
                 (olift2 (fun u ne => compute_temp u ne 0.76) (at_ (p_u p) (n - 1)) (at_ (p_ne p) (n - 1)))
                 (at_ (p_h p) (n - 1)))).
  { apply F. apply in_map_iff. exists (n - 1)%nat. split; [reflexivity|]. apply in_seq. lia. }
  destruct D as (V & _). cbn [g_pos] in V. apply V. unfold triple. cbn. auto.
Qed.

(** Particles with numbers nobody has written. *)
Lemma C123_missing_aux : forall split s n p a h, load_snapshot split s = Loaded n p ->
  lacks s "POS " 3 \/ lacks s "VEL " 3 \/ lacks s "U   " 1 \/ g_cooling s = false \/ (split = false /\ (lacks s "NE  " 1 \/ lacks s "HSML" 1)) \/
  (split = true /\ (lacks s "NHP " 1 \/ lacks s "NHEP" 1)) ->
  n = n_gas s /\ ~ Forall determinate (converted a h (Z.of_nat n) p).
Proof.
  intros split s n p a h E MISS. destruct (loaded_parts split s n p E) as (P & -> & E1 & E2 & E3 & E4 & E5 & E6 & E7). split; [reflexivity|]. intros F.
  pose proof (last_good a h (n_gas s) (n_gas s) ltac:(lia) p F) as (G1 & _ & G3 & G4 & G5). pose proof (last_pos a h (n_gas s) p P F) as G0.
  replace (3 * (n_gas s - 1) + 2)%nat with (3 * n_gas s - 1)%nat in G0, G1 by lia.
  rewrite E1 in G0. rewrite E2 in G1. rewrite E4 in G3.
  destruct MISS as [M|[M|[M|[M|[(-> & M)|(-> & M)]]]]].
  - apply G0. apply get_last; [lia|exact M].
  - apply G1. apply get_last; [lia|exact M].
  - apply G3. pose proof (get_last s "U   " 1 ltac:(lia) M) as Q. rewrite Nat.mul_1_l in Q. exact Q.
  - rewrite M in E5. rewrite E5 in G4. apply G4. apply at_fresh.
  - destruct M as [M|M].
    + destruct (g_cooling s) eqn:C; [|rewrite E5 in G4; apply G4; apply at_fresh]. rewrite E5 in G4. cbn [read_electrons fst] in G4. apply G4.
      pose proof (get_last s "NE  " 1 ltac:(lia) M) as Q. rewrite Nat.mul_1_l in Q. exact Q.
    + rewrite E7 in G5.
      assert (HF : (if g_cooling s then snd (read_electrons false s (n_gas s) (fresh (n_gas s)) (fresh (n_gas s))) else fresh (n_gas s)) = fresh (n_gas s))
        by (destruct (g_cooling s); reflexivity). rewrite HF in G5.
      apply G5. rewrite at_map_first; [|rewrite get_length; rewrite ?fresh_length; lia|lia].
      pose proof (get_last s "HSML" 1 ltac:(lia) M) as Q. rewrite Nat.mul_1_l in Q. rewrite Q. reflexivity.
  - destruct (g_cooling s) eqn:C; [|rewrite E5 in G4; apply G4; apply at_fresh]. rewrite E5 in G4. cbn [read_electrons fst] in G4.
    assert (ZL : forall n f x y, length (zip_first n f x y) = length x).
    { induction n as [|n IH]; intros f [|x xs] [|y ys]; cbn; auto. }
    apply G4.
    assert (LA : forall name a, length a = n_gas s -> length (get_block s name 1 (n_gas s) a) = n_gas s) by (intros name b LB; rewrite get_length; lia).
    assert (LF : length (fresh (n_gas s)) = n_gas s) by apply fresh_length.
    rewrite at_zip_first; [|rewrite ZL, !LA; auto; lia|rewrite !LA; auto; lia|lia].
    rewrite at_zip_first; [|rewrite !LA; auto; lia|rewrite !LA; auto; lia|lia].
    destruct M as [M|M].
    + pose proof (get_last s "NHP " 1 ltac:(lia) M) as Q. rewrite Nat.mul_1_l in Q. rewrite Q. reflexivity.
    + pose proof (get_last s "NHEP" 1 ltac:(lia) M) as Q. rewrite Nat.mul_1_l in Q. rewrite Q.
      destruct (at_ (get_block s "NHP " 1 (n_gas s) (fresh (n_gas s))) (n_gas s - 1)); reflexivity.
Qed.

(** The scratch space. *)
Lemma C123_scratch_aux : forall s n p hp hep, load_snapshot true s = Loaded n p -> g_cooling s = true -> holds s "NHP " 1 hp -> holds s "NHEP" 1 hep ->
  (forall hepp, g_block s "HSML" = None -> holds s "NHEQ" 1 hepp -> forall i, (i < n)%nat -> at_ (p_h p) i = Some (nth i hepp 0 / 2)) /\
  (g_block s "NHEQ" = None -> forall i, (i < n)%nat -> at_ (p_ne p) i = Some (nth i hp 0 + 3 * nth i hep 0)).
Proof.
  intros s n p hp hep E C H1 H2. destruct (loaded_parts true s n p E) as (P & -> & _ & _ & _ & _ & E5 & _ & E7). rewrite C in E5, E7.
  assert (ZL : forall n f x y, length (zip_first n f x y) = length x).
  { induction n as [|n IH]; intros f [|x xs] [|y ys]; cbn; auto. }
  assert (LA : forall name a, length a = n_gas s -> length (get_block s name 1 (n_gas s) a) = n_gas s) by (intros name b LB; rewrite get_length; lia).
  assert (LF : length (fresh (n_gas s)) = n_gas s) by apply fresh_length.
  split.
  - intros hepp HS HQ i I. rewrite E7. cbn [read_electrons snd]. rewrite at_map_first; [|rewrite !LA; auto; lia|lia].
    unfold get_block at 1. rewrite HS. rewrite (at_get s "NHEQ" 1 _ hepp) by (try assumption; lia). reflexivity.
  - intros HQ i I. rewrite E5. cbn [read_electrons fst].
    rewrite at_zip_first; [|rewrite ZL, !LA; auto; lia|rewrite !LA; auto; lia|lia].
    rewrite at_zip_first; [|rewrite !LA; auto; lia|rewrite !LA; auto; lia|lia].
    unfold get_block at 3. rewrite HQ. rewrite (at_get s "NHP " 1 _ hp), (at_get s "NHEP" 1 _ hep) by (try assumption; lia).
    cbn [olift2]. f_equal. ring.
Qed.

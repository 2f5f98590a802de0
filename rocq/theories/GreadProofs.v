(** Gadget binary snapshots in the C extractor. *)
From Coq Require Import Ascii String.
From Coq Require Import Reals List Bool ZArith Arith Lia Lra.
From Verif Require Import CreadModel CreadSpec CreadProofs CreadProofs2 CreadProofs3 GreadModel GreadSpec.
Import ListNotations.
Local Open Scope R_scope.

Lemma at_get : forall s name w a v i, holds s name w v -> (i < w * n_gas s)%nat -> at_ (get_block s name w (n_gas s) a) i = Some (nth i v 0).
Proof.
  intros s name w a v i [B L] I. unfold get_block. rewrite B. rewrite at_fill by (rewrite firstn_length; lia).
  f_equal. rewrite <- (firstn_skipn (w * n_gas s) v) at 2. rewrite app_nth1 by (rewrite firstn_length; lia). reflexivity.
Qed.

Lemma get_length : forall s name w a, length a = (w * n_gas s)%nat -> length (get_block s name w (n_gas s) a) = (w * n_gas s)%nat.
Proof.
  intros s name w a L. unfold get_block. destruct (g_block s name) as [v|]; [|exact L]. rewrite fill_length; [exact L|]. rewrite firstn_length. lia.
Qed.

(** Without enough numbers the last one is not written. *)
Lemma get_last : forall s name w, (0 < w * n_gas s)%nat -> lacks s name w ->
  at_ (get_block s name w (n_gas s) (fresh (w * n_gas s))) (w * n_gas s - 1) = None.
Proof.
  intros s name w P L. unfold get_block. destruct (g_block s name) as [v|] eqn:B; [|apply at_fresh].
  assert (LV : (length v < w * n_gas s)%nat). { destruct (Nat.lt_ge_cases (length v) (w * n_gas s)); auto. exfalso. apply L. exists v. split; auto. }
  rewrite firstn_all2 by lia. unfold at_, fill. rewrite nth_error_app2 by (rewrite map_length; lia). rewrite map_length, nth_error_skip.
  assert (E : nth_error (fresh (w * n_gas s)) (length v + (w * n_gas s - 1 - length v)) = Some None).
  { unfold fresh. apply nth_error_repeat. lia. }
  now rewrite E.
Qed.

Lemma fresh_length : forall n, length (fresh n) = n.
Proof. intros. apply repeat_length. Qed.

(** ** The comparison of densities *)

Lemma compare_spec : forall z n a, (n <= length a)%nat ->
  match compare (Some z) a n with
  | Same => forall i, (i < n)%nat -> at_ a i = Some z
  | Differ => exists i y, (i < n)%nat /\ at_ a i = Some y /\ y <> z /\ (forall j, (j < i)%nat -> at_ a j = Some z)
  | Undefined => exists i, (i < n)%nat /\ at_ a i = None /\ (forall j, (j < i)%nat -> at_ a j = Some z)
  end.
Proof.
  intros z. induction n as [|n IH]; intros a L; [destruct a; cbn [compare]; intros i I; lia|]. destruct a as [|x a]; [cbn in L; lia|]. cbn in L. cbn [compare].
  destruct x as [y|].
  - destruct (Req_EM_T y z) as [E|E].
    + specialize (IH a ltac:(lia)). destruct (compare (Some z) a n).
      * intros [|i] I; [unfold at_; cbn; now rewrite E|]. apply (IH i). lia.
      * destruct IH as (i & w & I & A & W & B). exists (S i), w. split; [lia|]. split; [exact A|]. split; [exact W|].
        intros [|j] J; [unfold at_; cbn; now rewrite E|]. apply (B j). lia.
      * destruct IH as (i & I & A & B). exists (S i). split; [lia|]. split; [exact A|].
        intros [|j] J; [unfold at_; cbn; now rewrite E|]. apply (B j). lia.
    + exists 0%nat, y. split; [lia|]. split; [reflexivity|]. split; [exact E|]. intros j J. lia.
  - exists 0%nat. split; [lia|]. split; [reflexivity|]. intros j J. lia.
Qed.

Lemma compare_stored : forall s rho, (0 < n_gas s)%nat -> holds s "RHO " 1 rho ->
  let dens := get_block s "RHO " 1 (n_gas s) (fresh (n_gas s)) in
  (uniform (n_gas s) rho -> compare (at_ dens 0) dens (n_gas s) = Same) /\
  (~ uniform (n_gas s) rho -> compare (at_ dens 0) dens (n_gas s) = Differ).
Proof.
  intros s rho P H dens. assert (AT : forall i, (i < n_gas s)%nat -> at_ dens i = Some (nth i rho 0)).
  { intros i I. unfold dens. apply at_get; [exact H|lia]. }
  assert (LD : length dens = n_gas s).
  { unfold dens. rewrite get_length; [lia|]. rewrite fresh_length. lia. }
  rewrite (AT 0%nat P). pose proof (compare_spec (nth 0 rho 0) (n_gas s) dens ltac:(lia)) as C.
  destruct (compare (Some (nth 0 rho 0)) dens (n_gas s)).
  - split; [auto|]. intros NU. exfalso. apply NU. intros i j I J. pose proof (C i I) as A. pose proof (C j J) as B. rewrite AT in A, B by assumption. congruence.
  - destruct C as (i & y & I & A & W & _). split; [|auto]. intros U. exfalso. rewrite AT in A by exact I. injection A as <-. apply W. apply U; lia.
  - destruct C as (i & I & A & _). rewrite AT in A by exact I. discriminate.
Qed.

(** ** Loading *)

Lemma electrons_ok : forall split s ne, electrons_of split s ne ->
  forall i, (i < n_gas s)%nat -> at_ (fst (read_electrons split s (n_gas s) (fresh (n_gas s)) (fresh (n_gas s)))) i = Some (nth i ne 0).
Proof.
  intros split s ne E i I. unfold read_electrons. unfold electrons_of in E. destruct split; cbn [fst].
  - destruct E as (hp & hep & hepp & H1 & H2 & H3 & EQ).
    set (a := get_block s "NHP " 1 (n_gas s) (fresh (n_gas s))). set (h := get_block s "NHEP" 1 (n_gas s) (fresh (n_gas s))).
    assert (LA : length a = n_gas s) by (unfold a; rewrite get_length; rewrite ?fresh_length; lia).
    assert (LH : length h = n_gas s) by (unfold h; rewrite get_length; rewrite ?fresh_length; lia).
    assert (ZL : forall n f x y, length (zip_first n f x y) = length x).
    { induction n as [|n IH]; intros f [|x xs] [|y ys]; cbn; auto. }
    rewrite at_zip_first; [|rewrite ZL; lia|rewrite get_length; lia|exact I].
    rewrite at_zip_first by lia. unfold a, h. rewrite (at_get s "NHP " 1 _ hp), (at_get s "NHEP" 1 _ hep), (at_get s "NHEQ" 1 _ hepp) by (try assumption; lia).
    cbn [olift2]. now rewrite EQ.
  - apply at_get; [exact E|lia].
Qed.

Lemma electrons_length : forall split s, length (snd (read_electrons split s (n_gas s) (fresh (n_gas s)) (fresh (n_gas s)))) = n_gas s.
Proof.
  intros split s. unfold read_electrons. destruct split; cbn [snd].
  - rewrite get_length; [lia|]. rewrite get_length; rewrite ?fresh_length; lia.
  - apply fresh_length.
Qed.

Lemma triple_at : forall a v i n, (3 * i + 2 < n)%nat -> (forall k, (k < n)%nat -> at_ a k = Some (nth k v 0)) ->
  triple a i = [Some (nth (3 * i) v 0); Some (nth (3 * i + 1) v 0); Some (nth (3 * i + 2) v 0)].
Proof. intros a v i n L H. unfold triple. rewrite !H by lia. reflexivity. Qed.

Lemma load_complete : forall split s pos vel rho u ne fr len, complete split s pos vel rho u ne fr len -> uniform (n_gas s) rho ->
  0 < g_time s -> 0 < g_hubble s -> (forall i, (i < n_gas s)%nat -> 0 <= nth i ne 0) ->
  exists p, load_snapshot split s = Loaded (n_gas s) p /\
    particles_of s pos vel rho u ne fr len (converted (g_time s) (g_hubble s) (Z.of_nat (n_gas s)) p).
Proof.
  intros split s pos vel rho u ne fr len (P & C & HP & HV & HR & HU & HE & HN & HL) UN A H NE.
  unfold load_snapshot. destruct (Nat.eqb_spec (n_gas s) 0) as [Z|_]; [lia|].
  cbn [alloc_parts p_pos p_vel p_dens p_u p_ne p_temp p_h p_frac].
  rewrite (proj1 (compare_stored s rho P HR) UN). rewrite C.
  pose proof (electrons_ok split s ne HE) as EO. pose proof (electrons_length split s) as EL.
  destruct (read_electrons split s (n_gas s) (fresh (n_gas s)) (fresh (n_gas s))) as [ne' h'] eqn:RE. cbn [fst snd] in EO, EL.
  eexists. split; [reflexivity|]. unfold particles_of, converted. rewrite Nat2Z.id. apply Forall2_seq. intros i I.
  unfold particle. cbn [g_pos g_vel g_col g_temp g_h p_pos p_vel p_dens p_u p_ne p_h p_frac].
  rewrite (triple_at _ pos i (3 * n_gas s)) by (first [lia|intros k K; apply at_get; [exact HP|lia]]).
  rewrite (triple_at _ vel i (3 * n_gas s)) by (first [lia|intros k K; apply at_get; [exact HV|lia]]).
  rewrite (at_get s "RHO " 1 _ rho), (at_get s "U   " 1 _ u), (at_get s "NH  " 1 _ fr), EO by (try assumption; lia).
  rewrite at_map_first; [|rewrite get_length; lia|exact I]. rewrite (at_get s "HSML" 1 _ len) by (try assumption; lia).
  split; [reflexivity|]. split; [reflexivity|]. split; [exact (convert_spec _ _ (nth i rho 0) (nth i fr 0) A H)|]. split; [|reflexivity].
  cbn [olift2]. eexists. split; [reflexivity|]. apply temp_spec. specialize (NE i I). apply Rgt_not_eq. lra.
Qed.

(** ** The program *)
Section Main.
Context (interp : hdf_header -> list used -> list R * list R).
Context (byte : Type) (put_double : R -> list byte) (put_int : Z -> list byte).

Lemma header_ok : forall s, (0 < n_files s)%Z -> load_header s =
  Some (mkHdf (g_time s) (g_redshift s) (hz (g_time s) (g_hubble s) (g_omega0 s) (g_omegal s)) (g_box s) (g_hubble s)).
Proof. intros s N. unfold load_header. destruct (Z.leb_spec (n_files s) 0); [lia|reflexivity]. Qed.

Lemma C123_complete_aux : forall split numlos s pos vel rho u ne fr len, (0 < n_files s)%Z ->
  complete split s pos vel rho u ne fr len -> uniform (n_gas s) rho ->
  0 < g_time s -> 0 < g_hubble s -> (forall i, (i < n_gas s)%nat -> 0 <= nth i ne 0) ->
  exists hd l, k_time hd = g_time s /\ k_redshift hd = g_redshift s /\ k_box hd = g_box s /\ k_hubble hd = g_hubble s /\
    k_hz hd = 100 * g_hubble s * sqrt (1 + g_omega0 s * (1 / g_time s - 1) + g_omegal s * (g_time s ^ 2 - 1)) / g_time s /\
    particles_of s pos vel rho u ne fr len l /\
    run interp byte put_double put_int split true numlos s =
      Ends byte 0 (Some (write_spectra byte put_double put_int (g_redshift s) (g_box s) numlos (fst (interp hd l)) (snd (interp hd l)))).
Proof.
  intros split numlos s pos vel rho u ne fr len N CO UN A H NE.
  destruct (load_complete split s pos vel rho u ne fr len CO UN A H NE) as (p & LO & PA).
  exists (mkHdf (g_time s) (g_redshift s) (hz (g_time s) (g_hubble s) (g_omega0 s) (g_omegal s)) (g_box s) (g_hubble s)).
  exists (converted (g_time s) (g_hubble s) (Z.of_nat (n_gas s)) p).
  do 5 (split; [reflexivity|]). split; [exact PA|]. unfold run. rewrite (header_ok s N). cbn [negb]. rewrite LO. cbn [k_time k_hubble k_redshift k_box].
  match goal with |- context [interp ?h ?l] => destruct (interp h l) as [tau col] eqn:I end.
  reflexivity.
Qed.

Lemma C123_density_aux : forall split numlos s rho, (0 < n_files s)%Z -> (0 < n_gas s)%nat -> holds s "RHO " 1 rho -> ~ uniform (n_gas s) rho ->
  run interp byte put_double put_int split true numlos s = Ends byte 0 (Some []).
Proof.
  intros split numlos s rho N P H NU. unfold run. rewrite (header_ok s N). cbn [negb]. unfold load_snapshot.
  destruct (Nat.eqb_spec (n_gas s) 0) as [Z|_]; [lia|]. cbn [alloc_parts p_pos p_vel p_dens p_u p_ne p_temp p_h p_frac].
  now rewrite (proj2 (compare_stored s rho P H) NU).
Qed.

Lemma C123_errors_aux : forall split can_open numlos s,
  ((n_files s <= 0)%Z -> run interp byte put_double put_int split can_open numlos s = Ends byte 2 None) /\
  ((0 < n_files s)%Z -> run interp byte put_double put_int split false numlos s = Ends byte 1 None) /\
  ((0 < n_files s)%Z -> n_gas s = 0%nat -> run interp byte put_double put_int split true numlos s = Ends byte 2 (Some [])).
Proof.
  intros split can_open numlos s. repeat split.
  - intros N. unfold run, load_header. destruct (Z.leb_spec (n_files s) 0); [reflexivity|lia].
  - intros N. unfold run. now rewrite (header_ok s N).
  - intros N G. unfold run. rewrite (header_ok s N). unfold load_snapshot. rewrite G. reflexivity.
Qed.

(** A density block that is missing or too short. *)
Lemma C123_short_aux : forall split numlos s, (0 < n_files s)%Z -> (0 < n_gas s)%nat -> lacks s "RHO " 1 ->
  run interp byte put_double put_int split true numlos s = Ends byte 0 (Some []) \/
  run interp byte put_double put_int split true numlos s = Depends byte.
Proof.
  intros split numlos s N P LA. unfold run. rewrite (header_ok s N). cbn [negb]. unfold load_snapshot.
  destruct (Nat.eqb_spec (n_gas s) 0) as [Z|_]; [lia|]. cbn [alloc_parts p_pos p_vel p_dens p_u p_ne p_temp p_h p_frac].
  pose proof (get_last s "RHO " 1 ltac:(lia) LA) as LAST. rewrite Nat.mul_1_l in LAST.
  set (dens := get_block s "RHO " 1 (n_gas s) (fresh (n_gas s))) in *.
  assert (LD : length dens = n_gas s) by (unfold dens; rewrite get_length; rewrite ?fresh_length; lia).
  destruct (at_ dens 0) as [z|] eqn:D0.
  - pose proof (compare_spec z (n_gas s) dens ltac:(lia)) as C. destruct (compare (Some z) dens (n_gas s)); auto.
    rewrite C in LAST by lia. discriminate.
  - right. destruct (n_gas s) as [|n]; [lia|]. destruct dens as [|x dens']; [cbn in LD; lia|]. cbn [compare]. destruct x; reflexivity.
Qed.
End Main.

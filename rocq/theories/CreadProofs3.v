(** Proofs about the units, the output file and the options of the C extractor. *)
From Coq Require Import Ascii String.
From Coq Require Import Reals List Bool ZArith Arith Lia Lra.
From Verif Require Import CreadModel CreadSpec CreadProofs CreadProofs2.
From Verif Require QuantModel GaspropModel CstatModel.
Import ListNotations.
Local Open Scope R_scope.

(** ** Units *)

Lemma C87_hubble_aux : forall a h o l, 0 < a -> hz a h o l = 100 * h * sqrt (o / a ^ 3 + (1 - o - l) / a ^ 2 + l).
Proof.
  intros a h o l A. unfold hz. unfold Rdiv at 1. rewrite !Rmult_assoc. do 2 f_equal.
  replace (o / a ^ 3 + (1 - o - l) / a ^ 2 + l) with ((1 + o * (1 / a - 1) + l * (a ^ 2 - 1)) / a ^ 2) by (field; lra).
  rewrite sqrt_div_alt by (apply pow_lt; lra). rewrite sqrt_pow2 by lra. reflexivity.
Qed.

Lemma C87_velfac_aux : forall a h o l, 0 < a -> h <> 0 -> o + l = 1 ->
  velfac a h (hz a h o l) = py_velfac 3.085678e21 a h (py_hz a h o l).
Proof.
  intros a h o l A H F. rewrite C87_hubble_aux by exact A. replace (1 - o - l) with 0 by lra.
  unfold velfac, py_velfac, py_hz, py_rscale. replace (o / a ^ 3 + 0 / a ^ 2 + l) with (o / a ^ 3 + l) by (field; lra).
  set (r := sqrt (o / a ^ 3 + l)). clearbody r. field. lra.
Qed.

Lemma C87_curved_aux : forall a h o l, 0 < a -> h <> 0 -> o + l <> 1 ->
  0 <= o / a ^ 3 + l -> 0 <= o / a ^ 3 + (1 - o - l) / a ^ 2 + l ->
  velfac a h (hz a h o l) <> py_velfac 3.085678e21 a h (py_hz a h o l).
Proof.
  intros a h o l A H F P Q E. rewrite C87_hubble_aux in E by exact A. unfold velfac, py_velfac, py_hz, py_rscale in E.
  set (s := sqrt (o / a ^ 3 + (1 - o - l) / a ^ 2 + l)) in *. set (r := sqrt (o / a ^ 3 + l)) in *.
  assert (SR : s = r).
  { apply (Rmult_eq_reg_l (a / 10)); [|lra].
    replace (a / 10 * s) with (a / h * (100 * h * s) / 1e3) by (field; lra). rewrite E. field. lra. }
  apply F. unfold s, r in SR. apply sqrt_inj in SR; [|exact Q|exact P].
  assert (Z : (1 - o - l) / a ^ 2 = 0) by lra.
  assert (a ^ 2 <> 0) by (apply pow_nonzero; lra).
  apply (Rmult_eq_compat_r (a ^ 2)) in Z. unfold Rdiv in Z. rewrite Rmult_assoc, Rinv_l in Z by assumption. lra.
Qed.

Lemma C87_density_aux : forall a h z d f n, 0 < a -> 0 < h -> 1 + z = / a -> hydrogen a h d n -> n <= 0.12948869200298072 ->
  exists rho, GaspropModel.get_code_rhoH QuantModel.default_units h z [d] = [rho] /\
    convert_density a h (Some d) (Some f) = Some (rho * py_rscale 3.085678e21 a h * 0.76 * f / 1.00794).
Proof.
  intros a h z d f n A H Z HY T. eexists. split; [reflexivity|].
  assert (EN : n = d * (dscale a h * 0.76)).
  { unfold hydrogen in HY. unfold dscale, gadget_mass, gadget_length.
    assert (K : 1.00794 * 1.67262178e-24 * (3.085678e21 / h * a) ^ 3 <> 0).
    { apply Rmult_integral_contrapositive. split; [lra|]. apply pow_nonzero. apply Rmult_integral_contrapositive. split; [|lra].
      apply Rmult_integral_contrapositive. split; [lra|apply Rinv_neq_0_compat; lra]. }
    apply (Rmult_eq_reg_r (1.00794 * 1.67262178e-24 * (3.085678e21 / h * a) ^ 3)); [|exact K].
    rewrite <- Rmult_assoc. rewrite HY. field. lra. }
  unfold convert_density, physdensthresh. rewrite EN in T. destruct (Rle_dec _ _); [|contradiction].
  f_equal. unfold GaspropModel.density_conv, GaspropModel.density_unit, GaspropModel.protonmass, QuantModel.default_units.
  cbn [QuantModel.u_mass QuantModel.u_length]. rewrite Z. unfold dscale, rscale, py_rscale, gadget_mass, gadget_length.
  field. lra.
Qed.

Lemma C87_neutral_aux : forall a h d f, 0 < a -> 0 < h -> 0 <= d -> 0 <= f <= 1 ->
  exists n c, hydrogen a h d n /\ convert_density a h (Some d) (Some f) = Some c /\ 0 <= c <= n * (3.085678e21 / h * a) /\
    (0.12948869200298072 < n -> c = n * (3.085678e21 / h * a)).
Proof.
  intros a h d f A H D F. destruct (convert_spec a h d f A H) as (c & E & n & HY & C). exists n, c. split; [exact HY|]. split; [exact E|].
  assert (LP : 0 < 3.085678e21 / h * a).
  { apply Rmult_lt_0_compat; [|exact A]. apply Rdiv_lt_0_compat; lra. }
  set (len := 3.085678e21 / h * a) in *. unfold hydrogen in HY. fold len in HY.
  assert (N : 0 <= n).
  { assert (K : 0 < 1.00794 * 1.67262178e-24 * len ^ 3) by (apply Rmult_lt_0_compat; [lra|now apply pow_lt]).
    apply (Rmult_le_reg_r (1.00794 * 1.67262178e-24 * len ^ 3)); [exact K|]. rewrite Rmult_0_l, <- Rmult_assoc. rewrite HY.
    apply Rmult_le_pos; [lra|]. apply Rmult_le_pos; [exact D|]. apply Rlt_le. apply Rdiv_lt_0_compat; lra. }
  destruct C as [(T & ->)|(T & ->)].
  - split; [|intros; lra]. assert (0 <= n * f <= n) by nra. split; nra.
  - split; [|reflexivity]. nra.
Qed.

Lemma C87_temperature_aux : forall u ne v, v <> 0 -> 0.76 * (0.75 + ne) + 0.25 <> 0 ->
  QuantModel.temp_one 0.76 ne (u * QuantModel.energy_unit (QuantModel.mkUnits 3.085678e21 1.98892e43 v)) * 1.38066e-16 =
  compute_temp u ne 0.76 * 1.3806504e-16 * (v / 1e5) ^ 2.
Proof.
  intros u ne v V N. unfold QuantModel.temp_one, QuantModel.energy_unit, compute_temp, tscale. cbn [QuantModel.u_vel].
  replace (0.76 * (3 + 4 * ne) + 1) with (4 * (0.76 * (0.75 + ne) + 0.25)) by lra.
  set (w := 0.76 * (0.75 + ne) + 0.25) in *. clearbody w. field. repeat split; try exact N; lra.
Qed.

Lemma C87_close_aux : forall u ne, 0 <= u -> 0 <= ne ->
  let tc := compute_temp u ne 0.76 in
  let tp := QuantModel.temp_one 0.76 ne (u * QuantModel.energy_unit QuantModel.default_units) in
  0 <= tp /\ tp <= tc <= tp * 1.000007.
Proof.
  intros u ne U N tc tp.
  assert (E : tp * 1.38066e-16 = tc * 1.3806504e-16).
  { unfold tp, tc, QuantModel.default_units. rewrite C87_temperature_aux by lra. replace ((1e5 / 1e5) ^ 2) with 1 by (field; lra). lra. }
  assert (P : 0 <= tc).
  { unfold tc, compute_temp, tscale. apply Rmult_le_pos; [apply Rmult_le_pos; [exact U|]|lra].
    apply Rlt_le. apply Rdiv_lt_0_compat; lra. }
  clearbody tc tp. split; [lra|]. split; lra.
Qed.

Lemma read_h_vel : forall g n np um p, p_vel (read_h g n np um p) = p_vel p.
Proof.
  intros. unfold read_h. destruct (g "Volume"%string).
  - destruct (get_single g "Volume" (p_h p) n) as [k h]. destruct (negb (Nat.eqb n k)); [reflexivity|]. now destruct um.
  - destruct (get_single g "SmoothingLength" (p_h p) n) as [k h]. destruct (negb (Nat.eqb n k)); [reflexivity|]. now destruct um.
Qed.

Lemma read_energy_vel : forall g n np c um p, p_vel (read_energy g n np c um p) = p_vel p.
Proof.
  intros. unfold read_energy. destruct (get_single g "InternalEnergy" (p_u p) n) as [k u]. destruct (negb (Nat.eqb n k)); [reflexivity|].
  destruct c; [|now rewrite read_h_vel]. destruct (get_single g "ElectronAbundance" _ n) as [k1 ne]. destruct (negb (Nat.eqb n k1)); [reflexivity|].
  destruct (get_single g "NeutralHydrogenAbundance" _ n) as [k2 fr]. destruct (negb (Nat.eqb n k2)); [reflexivity|]. now rewrite read_h_vel.
Qed.

Lemma extract_vel : forall a h hd g n pos vel, sound g -> block g "Coordinates" [n; 3%nat] pos -> (0 < n <= h_npart hd)%nat ->
  block g "Velocities" [n; 3%nat] vel ->
  exists l, extract_file a h (mkSnap (Some hd) (Some g)) = Some l /\
    Forall2 (fun i p => g_vel p = [Some (nth (3 * i) vel 0); Some (nth (3 * i + 1) vel 0); Some (nth (3 * i + 2) vel 0)]) (seq 0 n) l.
Proof.
  intros a h hd g n pos vel W BP N BV. unfold extract_file, load_snapshot. cbn [s_header s_gas].
  pose proof (block3_length _ _ _ _ W BV) as LV.
  assert (V : exists b p, read_gas g hd = (n, p) /\ p_vel p = fill b vel).
  { unfold read_gas. rewrite (triple_ok _ _ _ _ _ _ BP) by lia. destruct (Nat.eqb_spec n 0); [lia|].
    cbn [alloc_parts negb p_ne p_pos p_vel p_dens p_u p_temp p_h p_frac].
    rewrite (triple_ok _ _ _ _ _ _ BV) by lia. rewrite Nat.eqb_refl. cbn [negb p_ne p_pos p_vel p_dens p_u p_temp p_h p_frac].
    destruct (Req_EM_T (h_mass hd) 0).
    - destruct (get_single g "Density" (fresh (h_npart hd)) n) as [k1 d1]. destruct (Nat.eqb n k1).
      + do 2 eexists. split; [reflexivity|]. now rewrite read_energy_vel.
      + destruct (get_single g "Masses" d1 n) as [k2 d2]. destruct (negb (Nat.eqb n k2)); do 2 eexists; (split; [reflexivity|]); [reflexivity|now rewrite read_energy_vel].
    - do 2 eexists. split; [reflexivity|]. now rewrite read_energy_vel. }
  destruct V as (b & p & -> & EV). eexists. split; [reflexivity|]. unfold converted. rewrite Nat2Z.id. apply Forall2_seq.
  intros i I. cbn [g_vel]. rewrite EV. apply triple_fill. lia.
Qed.

Lemma Forall2_nth : forall {A B} (P : A -> B -> Prop) l m i a b, Forall2 P l m -> nth_error l i = Some a -> nth_error m i = Some b -> P a b.
Proof.
  intros A B P l m i a b F. revert i. induction F as [|x y l m Q F IH]; intros [|i] X Y; try discriminate; cbn in *.
  - injection X as <-. injection Y as <-. exact Q.
  - eauto.
Qed.

Lemma Forall2_len : forall {A B} (P : A -> B -> Prop) l m, Forall2 P l m -> length m = length l.
Proof. intros A B P l m F. induction F; cbn; auto. Qed.

Lemma C87_velocity_aux : forall a h hd g n pos vel header get i j, sound g ->
  block g "Coordinates" [n; 3%nat] pos -> (i < n <= h_npart hd)%nat -> block g "Velocities" [n; 3%nat] vel ->
  header "Time"%string = Some a -> get "Velocities"%string = QuantModel.Val vel -> (j < 3)%nat ->
  exists l vs x, extract_file a h (mkSnap (Some hd) (Some g)) = Some l /\ QuantModel.hdf_velocity header get = QuantModel.Val vs /\
    (exists p, nth_error l i = Some p /\ nth_error (g_vel p) j = Some (Some x)) /\
    nth_error vs (3 * i + j) = Some (x * sqrt a) /\
    (0 < a -> a <> 1 -> x <> 0 -> x * sqrt a <> x).
Proof.
  intros a h hd g n pos vel header get i j W BP N BV HT GV J.
  destruct (extract_vel a h hd g n pos vel W BP ltac:(lia) BV) as (l & E & F).
  pose proof (block3_length _ _ _ _ W BV) as LV.
  exists l, (map (fun x => x * sqrt a) vel), (nth (3 * i + j) vel 0). split; [exact E|].
  split. { unfold QuantModel.hdf_velocity. rewrite GV. cbn [QuantModel.bind]. unfold QuantModel.look. rewrite HT. reflexivity. }
  assert (LL : length l = n) by (pose proof (Forall2_len _ _ _ F) as Q; rewrite seq_length in Q; auto).
  destruct (nth_error l i) as [p|] eqn:P; [|apply nth_error_None in P; lia].
  assert (SI : nth_error (seq 0 n) i = Some i).
  { rewrite (nth_error_nth' _ 0%nat) by (rewrite seq_length; lia). rewrite seq_nth by lia. reflexivity. }
  pose proof (Forall2_nth _ _ _ _ _ _ F SI P) as Q. cbv beta in Q.
  split. { exists p. split; [reflexivity|]. rewrite Q. destruct j as [|[|[|j]]]; [|reflexivity|reflexivity|lia]. cbn [nth_error]. do 3 f_equal. lia. }
  split. { rewrite nth_error_map, (nth_error_nth' vel 0) by lia. reflexivity. }
  intros A A1 X0 K. apply A1. assert (S1 : sqrt a = 1).
  { apply (Rmult_eq_reg_l (nth (3 * i + j) vel 0)); [lra|exact X0]. }
  rewrite <- (sqrt_sqrt a) by lra. rewrite S1. lra.
Qed.

Lemma C87_header_aux : forall a, (0 <= a_total a)%Z -> (forall x, a_high a = Some x -> (0 <= x)%Z) ->
  forall k, load_header a = Some k <->
    (exists t z b h o l c, a_time a = Some t /\ a_redshift a = Some z /\ a_box a = Some b /\ a_hubble a = Some h /\ a_omega0 a = Some o /\
       a_omegal a = Some l /\ a_cooling a = Some c /\ k = mkHdf t z (hz t h o l) b h) /\
    ((0 < a_total a)%Z \/ exists x, a_high a = Some x /\ (0 < x)%Z).
Proof.
  intros a T X k. unfold load_header, native_int. split.
  - destruct (a_time a) as [t|]; [|discriminate]. destruct (a_redshift a) as [z|]; [|discriminate]. destruct (a_box a) as [b|]; [|discriminate].
    destruct (a_hubble a) as [h|]; [|discriminate]. destruct (a_omega0 a) as [o|]; [|discriminate]. destruct (a_omegal a) as [l|]; [|discriminate].
    destruct (a_cooling a) as [c|]; [|discriminate]. cbv zeta. destruct (Z.leb_spec (Z.min (a_total a) 2147483647 + 4294967296 *
      match a_high a with Some x => Z.min x 2147483647 | None => Z.min (a_total a) 2147483647 end) 0) as [L|L]; [discriminate|].
    intros E. injection E as <-. split; [exists t, z, b, h, o, l, c; auto 10|].
    destruct (a_high a) as [x|]; [|left; lia]. destruct (Z.eq_dec (a_total a) 0); [right; exists x; split; [reflexivity|lia]|left; lia].
  - intros ((t & z & b & h & o & l & c & -> & -> & -> & -> & -> & -> & -> & ->) & P). cbv zeta.
    destruct (Z.leb_spec (Z.min (a_total a) 2147483647 + 4294967296 *
      match a_high a with Some x => Z.min x 2147483647 | None => Z.min (a_total a) 2147483647 end) 0) as [L|L]; [|reflexivity].
    exfalso. destruct P as [P|(x & E & P)].
    + destruct (a_high a) as [x|]; [|lia]. specialize (X x eq_refl). lia.
    + rewrite E in L. lia.
Qed.

(** ** The output file *)

Section Bytes.
Context {byte : Type} (put_double : R -> list byte) (put_int : Z -> list byte) (get_double : list byte -> R) (get_int : list byte -> Z).
Context (ED : encoding 8 put_double get_double) (EI : encoding 4 put_int get_int).

Lemma firstn_exact : forall {A} (l m : list A) n, length l = n -> firstn n (l ++ m) = l.
Proof. intros A l m n L. rewrite firstn_app, <- L, Nat.sub_diag, firstn_O, app_nil_r. apply firstn_all. Qed.

Lemma skipn_exact : forall {A} (l m : list A) n, length l = n -> skipn n (l ++ m) = m.
Proof. intros A l m n L. rewrite skipn_app, <- L, Nat.sub_diag, skipn_all. reflexivity. Qed.

Lemma items_chunks : forall size (cs : list (list byte)) m rest, (0 < size)%nat -> Forall (fun c => length c = size) cs ->
  items byte size (length cs + m) (concat cs ++ rest) = (cs ++ items byte size m rest)%list.
Proof.
  intros size cs m rest P F. induction F as [|c cs L F IH]; [reflexivity|]. cbn [length Nat.add concat items]. rewrite <- app_assoc.
  replace (length (c ++ concat cs ++ rest) <? size)%nat with false by (symmetry; apply Nat.ltb_ge; rewrite app_length; lia).
  rewrite (firstn_exact c _ size L), (skipn_exact c _ size L), IH. reflexivity.
Qed.

Lemma items_short : forall size m (rest : list byte), (length rest < size)%nat -> items byte size m rest = [].
Proof. intros size [|m] rest L; [reflexivity|]. cbn [items]. replace (length rest <? size)%nat with true by (symmetry; apply Nat.ltb_lt; lia). reflexivity. Qed.

Lemma chunks_length : forall (A : Type) (put : A -> list byte) size l, (forall x, length (put x) = size) -> length (concat (map put l)) = (size * length l)%nat.
Proof. intros A put size l E. induction l as [|x l IH]; [cbn; lia|]. cbn [map concat length]. rewrite app_length, E, IH. lia. Qed.

Lemma len_d : forall x, length (put_double x) = 8%nat. Proof using ED. intros x. apply ED. Qed.
Lemma len_i : forall x, length (put_int x) = 4%nat. Proof using EI. intros x. apply EI. Qed.

(** The header's 128 bytes. *)
Definition head (z b : R) (nl : Z) : list byte :=
  (put_double z ++ put_double b ++ put_int 1024 ++ put_int nl ++ concat (repeat (put_int 0) (32 - 6)))%list.

Lemma head_length : forall z b nl, length (head z b nl) = 128%nat.
Proof using ED EI.
  intros z b nl. unfold head. rewrite !app_length, !len_d, !len_i.
  change (repeat (put_int 0) (32 - 6)) with (map put_int (repeat 0%Z 26)). rewrite (chunks_length _ put_int 4 _ len_i), repeat_length. reflexivity.
Qed.

Lemma written : forall z b nl tau col, write_spectra byte put_double put_int z b nl tau col =
  (head z b nl ++ concat (map put_double (tau ++ col)))%list.
Proof using Type. intros. unfold write_spectra, head. rewrite map_app, concat_app, <- !app_assoc. reflexivity. Qed.

Lemma header_read : forall z b nl rest, read_stat_header byte get_double get_int (head z b nl ++ rest)%list = Some (z, b, 1024%Z, nl, rest).
Proof using ED EI.
  intros z b nl rest. unfold read_stat_header.
  set (ints := concat (map put_int (1024%Z :: nl :: repeat 0%Z 26))).
  assert (HE : head z b nl = (concat (map put_double [z; b]) ++ ints)%list).
  { unfold head, ints. cbn [map concat]. rewrite <- !app_assoc. cbn [app]. do 4 f_equal. }
  assert (I1 : items byte 8 2 (head z b nl ++ rest) = [put_double z; put_double b]).
  { rewrite HE, <- app_assoc. change 2%nat with (length (map put_double [z; b]) + 0)%nat.
    rewrite items_chunks; [cbn [items]; now rewrite app_nil_r|lia|]. apply Forall_map. apply Forall_forall. intros x _. apply len_d. }
  assert (S1 : skipn 16 (head z b nl ++ rest) = (ints ++ rest)%list).
  { rewrite HE, <- app_assoc. apply skipn_exact. rewrite (chunks_length _ _ 8 _ len_d). reflexivity. }
  assert (I2 : items byte 4 28 (ints ++ rest) = map put_int (1024%Z :: nl :: repeat 0%Z 26)).
  { unfold ints. change 28%nat with (length (map put_int (1024%Z :: nl :: repeat 0%Z 26)) + 0)%nat.
    rewrite items_chunks; [cbn [items]; now rewrite app_nil_r|lia|]. apply Forall_map. apply Forall_forall. intros x _. apply len_i. }
  rewrite I1, S1, I2. cbn [map]. rewrite map_length, repeat_length. cbn [Nat.eqb].
  rewrite (skipn_exact _ _ 128 (head_length z b nl)).
  destruct (ED z) as (_ & ->). destruct (ED b) as (_ & ->). destruct (EI 1024%Z) as (_ & ->). destruct (EI nl) as (_ & ->). reflexivity.
Qed.

(** The numbers in the first k bytes of a list of doubles. *)
Lemma cut_doubles : forall data k, let rest := firstn k (concat (map put_double data)) in
  map get_double (items byte 8 (length rest) rest) = firstn (k / 8) data.
Proof using ED.
  intros data k rest. subst rest.
  assert (M : forall data k c, (length (firstn k (concat (map put_double data))) <= c)%nat ->
     map get_double (items byte 8 c (firstn k (concat (map put_double data)))) = firstn (k / 8) data).
  { clear data k. induction data as [|x data IH]; intros k c C.
    - cbn [map concat]. rewrite firstn_nil. rewrite items_short by (cbn; lia). now rewrite firstn_nil.
    - cbn [map concat] in *. destruct (Nat.lt_ge_cases k 8) as [K|K].
      + rewrite items_short by (rewrite firstn_length; lia). rewrite Nat.div_small by lia. reflexivity.
      + rewrite firstn_app, len_d in *. rewrite (firstn_all2 (put_double x)) in * by (rewrite len_d; lia).
        rewrite app_length, len_d in C. destruct c as [|c]; [lia|].
        cbn [items]. replace (length (put_double x ++ firstn (k - 8) (concat (map put_double data))) <? 8)%nat with false
          by (symmetry; apply Nat.ltb_ge; rewrite app_length, len_d; lia).
        rewrite (firstn_exact _ _ 8 (len_d x)), (skipn_exact _ _ 8 (len_d x)).
        cbn [map]. rewrite IH by lia. destruct (ED x) as (_ & ->).
        replace (k / 8)%nat with (S ((k - 8) / 8)); [reflexivity|].
        replace k with (1 * 8 + (k - 8))%nat at 2 by lia. rewrite Nat.div_add_l by lia. lia. }
  apply M. lia.
Qed.

Lemma C88_cut_aux : forall z b nl tau col k, (128 <= k)%nat -> (0 <= nl)%Z ->
  stat_file byte get_double get_int (firstn k (write_spectra byte put_double put_int z b nl tau col)) =
  Some (CstatModel.mkFile z 1024 (Z.to_nat nl) (firstn ((k - 128) / 8) (tau ++ col))).
Proof using ED EI.
  intros z b nl tau col k K N. rewrite written, firstn_app, head_length, (firstn_all2 (head z b nl)) by (rewrite head_length; lia).
  unfold stat_file. rewrite header_read. do 2 f_equal. apply cut_doubles.
Qed.

Lemma write_length : forall z b nl tau col,
  length (write_spectra byte put_double put_int z b nl tau col) = (128 + 8 * (length tau + length col))%nat.
Proof using ED EI. intros. rewrite written, app_length, head_length, (chunks_length _ _ 8 _ len_d), app_length. reflexivity. Qed.

Lemma C88_roundtrip_aux : forall z b nl tau col, (0 <= nl)%Z ->
  length (write_spectra byte put_double put_int z b nl tau col) = (128 + 8 * (length tau + length col))%nat /\
  stat_file byte get_double get_int (write_spectra byte put_double put_int z b nl tau col) =
  Some (CstatModel.mkFile z 1024 (Z.to_nat nl) (tau ++ col)).
Proof using ED EI.
  intros z b nl tau col N. split; [apply write_length|].
  rewrite <- (firstn_all (write_spectra byte put_double put_int z b nl tau col)), C88_cut_aux; [|rewrite write_length; lia|exact N].
  rewrite write_length. do 2 f_equal. replace (128 + 8 * (length tau + length col) - 128)%nat with ((length tau + length col) * 8)%nat by lia.
  rewrite Nat.div_mul by lia. rewrite <- app_length. apply firstn_all.
Qed.

Lemma items_count : forall size n (f : list byte), (length f < size * n)%nat -> (length (items byte size n f) < n)%nat.
Proof using Type.
  intros size n. induction n as [|n IH]; intros f L; [lia|]. cbn [items]. destruct (Nat.ltb_spec (length f) size) as [S|S]; [cbn; lia|].
  cbn [length]. apply -> Nat.succ_lt_mono. apply IH. rewrite skipn_length. lia.
Qed.

Lemma C88_header_cut_aux : forall f : list byte, (length f < 128)%nat -> stat_file byte get_double get_int f = None.
Proof using Type.
  intros f L. unfold stat_file, read_stat_header.
  destruct (items byte 8 2 f) as [|z [|b [|? ?]]] eqn:I1; try reflexivity.
  destruct (items byte 4 28 (skipn 16 f)) as [|nb [|nl pad]] eqn:I2; try reflexivity.
  destruct (Nat.eqb_spec (length pad) 26) as [P|P]; [|reflexivity]. exfalso.
  pose proof (items_count 4 28 (skipn 16 f)) as Q. rewrite I2, skipn_length in Q. cbn [length] in Q. lia.
Qed.

Lemma C88_statistics_aux : forall z b n tau col k fft junk fuel o, (0 < n)%nat -> length tau = (1024 * n)%nat -> length col = (1024 * n)%nat ->
  (CstatModel.o_used o <= n)%nat -> (128 <= k)%nat ->
  exists f, stat_file byte get_double get_int (firstn k (write_spectra byte put_double put_int z b (Z.of_nat n) tau col)) = Some f /\
    let used := if Nat.eqb (CstatModel.o_used o) 0 then n else CstatModel.o_used o in
    CstatModel.statistic_main fft junk fuel o f =
      if (128 + 8 * (1024 * used) <=? k)%nat then CstatModel.statistic_main fft junk fuel o (CstatModel.mkFile z 1024 n tau)
      else CstatModel.ErrorExit.
Proof using ED EI.
  intros z b n tau col k fft junk fuel o N LT LC U K.
  rewrite C88_cut_aux by lia. eexists. split; [reflexivity|]. rewrite Nat2Z.id. cbv zeta.
  unfold CstatModel.statistic_main. cbn [CstatModel.f_numlos CstatModel.f_nbins CstatModel.f_data CstatModel.f_redshift].
  set (w1 := Z.testbit _ 0). set (w2 := Z.testbit _ 1). clearbody w1 w2.
  destruct (negb (w1 || w2)); [now destruct (128 + _ <=? k)%nat|].
  destruct (Nat.eqb_spec n 0) as [Z0|_]; [lia|].
  set (used := if Nat.eqb (CstatModel.o_used o) 0 then n else CstatModel.o_used o).
  assert (UN : (used <= n)%nat) by (unfold used; destruct (Nat.eqb (CstatModel.o_used o) 0); lia). clearbody used.
  rewrite firstn_length, app_length, LT, LC.
  assert (D : (8 * ((k - 128) / 8) <= k - 128 < 8 * ((k - 128) / 8) + 8)%nat).
  { pose proof (Nat.div_mod (k - 128) 8 ltac:(lia)). pose proof (Nat.mod_upper_bound (k - 128) 8 ltac:(lia)). lia. }
  set (q := ((k - 128) / 8)%nat) in *. clearbody q.
  destruct (Nat.leb_spec (128 + 8 * (1024 * used)) k) as [E|E].
  - destruct (Nat.ltb_spec (Nat.min q (1024 * n + 1024 * n)) (1024 * used)) as [X|X]; [lia|].
    destruct (Nat.ltb_spec (1024 * n) (1024 * used)) as [Y|Y]; [lia|].
    assert (F : firstn (1024 * used) (firstn q (tau ++ col)) = firstn (1024 * used) tau).
    { rewrite firstn_firstn, Nat.min_l by lia. rewrite firstn_app, LT. replace (1024 * used - 1024 * n)%nat with 0%nat by lia.
      rewrite firstn_O, app_nil_r. reflexivity. }
    rewrite F. reflexivity.
  - destruct (Nat.ltb_spec (Nat.min q (1024 * n + 1024 * n)) (1024 * used)) as [X|X]; [reflexivity|lia].
Qed.
End Bytes.

(** ** Options *)

Lemma parse_app : forall os os' c, parse (os ++ os') c = match parse os c with Some c' => parse os' c' | None => None end.
Proof. induction os as [|o os IH]; intros os' c; [reflexivity|]. destruct o; cbn; auto. Qed.

Lemma last_snoc_some : forall {A} (pick : opt -> option A) os o x, pick o = Some x -> last_given pick (os ++ [o]) (Some x).
Proof. intros. now constructor. Qed.

Lemma last_snoc_none : forall {A} (pick : opt -> option A) os o y, pick o = None -> last_given pick os y -> last_given pick (os ++ [o]) y.
Proof.
  intros A pick os o y N H. destruct H as [os F|os p os' x P F].
  - constructor. apply Forall_app. auto.
  - rewrite <- app_assoc. cbn [app]. constructor; [exact P|]. apply Forall_app. auto.
Qed.

Lemma last_fun : forall {A} (pick : opt -> option A) os x y, last_given pick os x -> last_given pick os y -> x = y.
Proof.
  intros A pick os. induction os as [|o os IH] using rev_ind; intros x y H1 H2.
  - inversion H1; inversion H2; subst; try reflexivity; match goal with H : _ ++ _ :: _ = [] |- _ => destruct (app_eq_nil _ _ H); discriminate end.
  - assert (S : forall z, last_given pick (os ++ [o]) z -> (exists v, pick o = Some v /\ z = Some v) \/ (pick o = None /\ last_given pick os z)).
    { intros z H. inversion H as [l F E|l p l' v P F E]; subst.
      - apply Forall_app in F as (F & G). inversion G; subst. right. split; [assumption|]. now constructor.
      - destruct l' as [|p' l'] using rev_ind.
        + apply app_inj_tail in E as (-> & ->). left. eauto.
        + clear IHl'. rewrite app_comm_cons, app_assoc in E. apply app_inj_tail in E as (<- & ->). apply Forall_app in F as (F & G). inversion G; subst.
          right. split; [assumption|]. now constructor. }
    destruct (S x H1) as [(v & P & ->)|(P & L1)]; destruct (S y H2) as [(w & Q & ->)|(Q & L2)]; try congruence. eauto.
Qed.

Lemma parse_means : forall os, match parse os (mkSettings "" "" 0 None) with Some c => means os c | None => In OptOther os end.
Proof.
  induction os as [|o os IH] using rev_ind.
  - cbn. unfold means. split; [auto|]. repeat split; try (eexists; split; [constructor; constructor|reflexivity]). constructor. constructor.
  - rewrite parse_app. destruct (parse os (mkSettings "" "" 0 None)) as [c|]; [|apply in_or_app; now left].
    destruct IH as (NO & (x1 & L1 & E1) & (x2 & L2 & E2) & (x3 & L3 & E3) & L4).
    destruct o as [s|s|n|s|]; cbn [parse]; [| | | |apply in_or_app; right; now left];
      (split; [intros I; apply in_app_or in I as [I|[I|[]]]; [auto|discriminate]|]); cbn [c_out c_in c_numlos c_table].
    + split; [exists (Some s); split; [now apply last_snoc_some|reflexivity]|].
      split; [exists x2; split; [now apply last_snoc_none|exact E2]|]. split; [exists x3; split; [now apply last_snoc_none|exact E3]|]. now apply last_snoc_none.
    + split; [exists x1; split; [now apply last_snoc_none|exact E1]|].
      split; [exists (Some s); split; [now apply last_snoc_some|reflexivity]|]. split; [exists x3; split; [now apply last_snoc_none|exact E3]|]. now apply last_snoc_none.
    + split; [exists x1; split; [now apply last_snoc_none|exact E1]|]. split; [exists x2; split; [now apply last_snoc_none|exact E2]|].
      split; [exists (Some n); split; [now apply last_snoc_some|reflexivity]|]. now apply last_snoc_none.
    + split; [exists x1; split; [now apply last_snoc_none|exact E1]|]. split; [exists x2; split; [now apply last_snoc_none|exact E2]|].
      split; [exists x3; split; [now apply last_snoc_none|exact E3]|]. now apply last_snoc_some.
Qed.

Lemma means_fun : forall os c c', means os c -> means os c' -> c = c'.
Proof.
  intros os [o1 i1 n1 t1] [o2 i2 n2 t2] (_ & (x1 & L1 & E1) & (x2 & L2 & E2) & (x3 & L3 & E3) & L4) (_ & (y1 & M1 & F1) & (y2 & M2 & F2) & (y3 & M3 & F3) & M4).
  cbn [c_out c_in c_numlos c_table] in *.
  rewrite (last_fun _ _ _ _ L1 M1) in E1. rewrite (last_fun _ _ _ _ L2 M2) in E2. rewrite (last_fun _ _ _ _ L3 M3) in E3. rewrite (last_fun _ _ _ _ L4 M4).
  subst. reflexivity.
Qed.

Lemma C88_options_aux : forall os,
  (forall c, begin os = Go c <-> means os c /\ (0 < c_numlos c <= 2097151)%Z /\ c_in c <> ""%string) /\
  (begin os = Exit 1 <-> In OptOther os) /\
  (begin os = Exit 99 <-> exists c, means os c /\ ((c_numlos c <= 0)%Z \/ c_in c = ""%string)) /\
  (begin os = Overflow <-> exists c, means os c /\ (2097152 <= c_numlos c)%Z /\ c_in c <> ""%string).
Proof.
  intros os. pose proof (parse_means os) as M. unfold begin. destruct (parse os (mkSettings "" "" 0 None)) as [c|].
  - assert (NO : ~ In OptOther os) by apply M.
    destruct (Z.leb_spec (c_numlos c) 0) as [L|L].
    { split; [|split; [|split]].
      - intros c'. split; [discriminate|]. intros (M' & P & _). rewrite (means_fun os c' c M' M) in P. lia.
      - split; [discriminate|contradiction].
      - split; [|reflexivity]. intros _. exists c. auto.
      - split; [discriminate|]. intros (c' & M' & P & _). rewrite (means_fun os c' c M' M) in P. lia. }
    destruct (String.eqb_spec (c_in c) "") as [I|I].
    { split; [|split; [|split]].
      - intros c'. split; [discriminate|]. intros (M' & _ & P). rewrite (means_fun os c' c M' M) in P. contradiction.
      - split; [discriminate|contradiction].
      - split; [|reflexivity]. intros _. exists c. auto.
      - split; [discriminate|]. intros (c' & M' & _ & P). rewrite (means_fun os c' c M' M) in P. contradiction. }
    assert (B : ((2147483647 <? 3 * c_numlos c) || (2147483647 <? c_numlos c * 1024))%Z = negb (c_numlos c <=? 2097151)%Z).
    { destruct (Z.leb_spec (c_numlos c) 2097151); cbn [negb]; [apply orb_false_iff; split; apply Z.ltb_ge; lia|apply orb_true_iff; right; apply Z.ltb_lt; lia]. }
    rewrite B. destruct (Z.leb_spec (c_numlos c) 2097151) as [S|S]; cbn [negb].
    + split; [|split; [|split]].
      * intros c'. split; [intros E; injection E as <-; auto|]. intros (M' & _). now rewrite (means_fun os c' c M' M).
      * split; [discriminate|contradiction].
      * split; [discriminate|]. intros (c' & M' & P). rewrite (means_fun os c' c M' M) in P. destruct P; [lia|contradiction].
      * split; [discriminate|]. intros (c' & M' & P & _). rewrite (means_fun os c' c M' M) in P. lia.
    + split; [|split; [|split]].
      * intros c'. split; [discriminate|]. intros (M' & P & _). rewrite (means_fun os c' c M' M) in P. lia.
      * split; [discriminate|contradiction].
      * split; [discriminate|]. intros (c' & M' & P). rewrite (means_fun os c' c M' M) in P. destruct P; [lia|contradiction].
      * split; [|reflexivity]. intros _. exists c. split; [exact M|]. split; [lia|exact I].
  - split; [|split; [|split]].
    + intros c. split; [discriminate|]. intros ((NO & _) & _). contradiction.
    + split; auto.
    + split; [discriminate|]. intros (c & (NO & _) & _). contradiction.
    + split; [discriminate|]. intros (c & (NO & _) & _). contradiction.
Qed.

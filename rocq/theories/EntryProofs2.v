(** Proofs for C89 and C90: memory. *)
From Coq Require Import List Bool ZArith Arith Lia.
From Verif Require Import EntryModel EntrySpec EntryProofs.
Import ListNotations.
Local Open Scope Z_scope.

Lemma ib_read : forall args out o w i b, bytes args out o = Some b -> 0 <= i -> (i + 1) * w <= b -> in_bounds args out (Read o w i).
Proof. intros. split; [assumption|]. exists b. auto. Qed.

Lemma ib_write : forall args out o w i b, bytes args out o = Some b -> 0 <= i -> (i + 1) * w <= b -> in_bounds args out (Write o w i).
Proof. intros. split; [assumption|]. exists b. auto. Qed.

Lemma build_bounds : forall args out axis cofm ls n, bytes args out axis = Some (Z.of_nat n * 4) -> bytes args out cofm = Some (Z.of_nat n * 3 * 8) ->
  l_num ls = n -> Forall (in_bounds args out) (build_reads axis cofm ls).
Proof.
  intros args out axis cofm ls n A C <-. apply Forall_flat_map'. intros i I. apply in_seq in I. unfold zn.
  fa; [eapply ib_read; [exact A|lia|lia]|eapply ib_read; [exact C| |]]; destruct (l_axis ls i =? 1); lia.
Qed.

Lemma loop_bounds : forall args out pos h axis cofm ls visit n m,
  bytes args out pos = Some (Z.of_nat m * 3 * 4) -> bytes args out h = Some (Z.of_nat m * 4) ->
  bytes args out axis = Some (Z.of_nat n * 4) -> bytes args out cofm = Some (Z.of_nat n * 3 * 8) ->
  (forall i l, In l (visit i) -> (l < n)%nat) ->
  Forall (in_bounds args out) (loop_reads pos h axis cofm ls visit m).
Proof.
  intros args out pos h axis cofm ls visit n m P H A C V. apply Forall_flat_map'. intros i I. apply in_seq in I. unfold zn.
  apply Forall_cons; [eapply ib_read; [exact H|lia|unfold zn; lia]|]. unfold search_reads, zn.
  apply Forall_app. split; [destruct (some_other ls); fa; eapply ib_read; [exact P|lia|lia]|].
  apply Forall_app. split; [destruct (some_x ls); fa; eapply ib_read; [exact P|lia|lia]|].
  apply Forall_flat_map'. intros l L. specialize (V i l L). cbv zeta.
  fa; [eapply ib_read; [exact A|lia|lia]|eapply ib_read; [exact P| |]|eapply ib_read; [exact C| |]]; destruct (l_axis ls l =? 3); lia.
Qed.

Lemma int_read_bounds : forall args out o i b, bytes args out o = Some b -> 0 <= i <= 2147483647 -> (i + 1) * 4 <= b -> in_bounds args out (int_read o i).
Proof.
  intros args out o i b B I S. unfold int_read. replace (i <=? 2147483647) with true by (symmetry; apply Z.leb_le; lia).
  eapply ib_read; [exact B|lia|lia].
Qed.

Lemma line_bounds : forall args q pos vel dens temp h axis cofm m n l, (l < n)%nat -> Z.of_nat m <= 715827882 -> 0 < q_nbins q -> interp_indices q m n ->
  bytes args (Z.of_nat n * q_nbins q * 8) pos = Some (Z.of_nat m * 3 * 4) -> bytes args (Z.of_nat n * q_nbins q * 8) dens = Some (Z.of_nat m * 4) ->
  bytes args (Z.of_nat n * q_nbins q * 8) h = Some (Z.of_nat m * 4) ->
  (q_tau q = true -> bytes args (Z.of_nat n * q_nbins q * 8) vel = Some (Z.of_nat m * 3 * 4) /\ bytes args (Z.of_nat n * q_nbins q * 8) temp = Some (Z.of_nat m * 4)) ->
  bytes args (Z.of_nat n * q_nbins q * 8) axis = Some (Z.of_nat n * 4) -> bytes args (Z.of_nat n * q_nbins q * 8) cofm = Some (Z.of_nat n * 3 * 8) ->
  Forall (in_bounds args (Z.of_nat n * q_nbins q * 8)) (line_accesses q pos vel dens temp h axis cofm l).
Proof.
  intros args q pos vel dens temp h axis cofm m n l L M B (V & N & J & X) P D H T A C. unfold line_accesses.
  specialize (X l L). apply Forall_app. split.
  - destruct (q_mesh q); [|constructor]. apply Forall_cons; [eapply ib_read; [exact A|unfold zn; lia|unfold zn; lia]|].
    unfold cell_reads, zn. apply Forall_app. split.
    + assert (0 <= Z.rem (q_values q l) 3 <= 2 /\ 0 <= Z.rem (q_values q l + 1) 3 <= 2) as (R1 & R2) by (destruct X as [X|[X|X]]; rewrite X; cbn; lia).
      fa; (eapply ib_read; [exact C| |]); lia.
    + apply Forall_flat_map'. intros p I. specialize (N l p I).
      assert (0 <= Z.rem (q_values q l) 3 <= 2 /\ 0 <= Z.rem (q_values q l + 1) 3 <= 2) as (R1 & R2) by (destruct X as [X|[X|X]]; rewrite X; cbn; lia).
      fa; (eapply int_read_bounds; [exact P| |]); lia.
  - apply Forall_cons; [eapply ib_read; [exact A|unfold zn; lia|unfold zn; lia]|]. apply Forall_flat_map'. intros p I. pose proof (N l p I) as Np. unfold zn.
    apply Forall_app. split; [|apply Forall_app; split].
    + apply Forall_cons; [eapply int_read_bounds; [exact P|lia|lia]|]. destruct (q_tau q); [|constructor]. destruct (T eq_refl) as (T1 & T2).
      fa. eapply int_read_bounds; [exact T1|lia|lia].
    + apply Forall_cons; [eapply ib_read; [exact D|lia|lia]|]. apply Forall_app. split.
      * destruct (q_tau q); [|constructor]. destruct (T eq_refl) as (T1 & T2). fa. eapply ib_read; [exact T2|lia|lia].
      * destruct (q_mesh q); fa. eapply ib_read; [exact H|lia|lia].
    + apply Forall_forall. intros e IN. apply in_map_iff in IN as (j & <- & IJ). specialize (J l p j IJ).
      assert (0 <= row (Z.of_nat l) (q_nbins q) <= Z.of_nat l * q_nbins q).
      { unfold row. split; [apply Z.mod_pos_bound; lia|]. apply Z.mod_le; nia. }
      eapply ib_write; [reflexivity|lia|]. nia.
Qed.

Lemma near_trace : forall q m n, near_sound q m n -> exists cofm e1 axis e2 pos e3 hh e4,
  contiguous 3 (n_cofm q) = (cofm, e1) /\ contiguous 2 (n_axis q) = (axis, e2) /\ contiguous 0 (n_pos q) = (pos, e3) /\ contiguous 1 (n_hh q) = (hh, e4) /\
  near_lines q = ([e1; e2] ++ build_reads axis cofm (mkLines n (n_values q)) ++ [e3; e4] ++
         loop_reads pos hh axis cofm (mkLines n (n_values q)) (n_visit q) m ++
         [Create Output; Incref Output; Decref Output; Decref pos; Decref hh; Decref cofm; Decref axis], Returned).
Proof.
  intros q m n (Sp & Sh & Sa & Sc & Tp & Th & (Tc & Ta) & V).
  destruct (contiguous 3 (n_cofm q)) as [cofm e1] eqn:C1, (contiguous 2 (n_axis q)) as [axis e2] eqn:C2, (contiguous 0 (n_pos q)) as [pos e3] eqn:C3,
    (contiguous 1 (n_hh q)) as [hh e4] eqn:C4.
  exists cofm, e1, axis, e2, pos, e3, hh, e4. repeat (split; [reflexivity|]).
  unfold near_lines, ndim, dim. rewrite Sc, Sa, Sp. cbn [length nth_error Nat.ltb Nat.leb orb]. rewrite Z.eqb_refl. cbn [negb orb Z.eqb Pos.eqb].
  apply check_double_spec in Tc. apply check_int_spec in Ta. apply check_float_spec in Tp, Th. rewrite Tc, Ta, Tp, Th. cbn [orb].
  rewrite C1, C2, C3, C4, !Nat2Z.id. reflexivity.
Qed.

Lemma got_bytes : forall k a o e args out s t, contiguous k a = (o, e) -> nth_error args k = Some a -> a_shape a = s -> a_type a = t ->
  bytes args out o = Some (fold_right Z.mul 1 s * itemsize t).
Proof. intros k a o e args out s t C N <- <-. apply (contiguous_spec k a o e C). exact N. Qed.

Lemma near_safe_aux : forall q m n, near_sound q m n ->
  snd (near_lines q) = Returned /\ forall out, Forall (in_bounds (near_args q) out) (fst (near_lines q)).
Proof.
  intros q m n W. destruct (near_trace q m n W) as (cofm & e1 & axis & e2 & pos & e3 & hh & e4 & C1 & C2 & C3 & C4 & E). rewrite E. split; [reflexivity|].
  intros out. destruct W as (Sp & Sh & Sa & Sc & Tp & Th & (Tc & Ta) & V). cbn [fst].
  assert (Bc : bytes (near_args q) out cofm = Some (Z.of_nat n * 3 * 8)).
  { rewrite (got_bytes 3 _ _ _ (near_args q) out _ _ C1 eq_refl Sc Tc). apply f_equal. cbn [fold_right itemsize]. ring. }
  assert (Ba : bytes (near_args q) out axis = Some (Z.of_nat n * 4)).
  { rewrite (got_bytes 2 _ _ _ (near_args q) out _ _ C2 eq_refl Sa Ta). apply f_equal. cbn [fold_right itemsize]. ring. }
  assert (Bp : bytes (near_args q) out pos = Some (Z.of_nat m * 3 * 4)).
  { rewrite (got_bytes 0 _ _ _ (near_args q) out _ _ C3 eq_refl Sp Tp). apply f_equal. cbn [fold_right itemsize]. ring. }
  assert (Bh : bytes (near_args q) out hh = Some (Z.of_nat m * 4)).
  { rewrite (got_bytes 1 _ _ _ (near_args q) out _ _ C4 eq_refl Sh Th). apply f_equal. cbn [fold_right itemsize]. ring. }
  assert (forall k a o e, contiguous k a = (o, e) -> in_bounds (near_args q) out e) as IE.
  { intros k a o e C. destruct (contiguous_spec k a o e C) as ([-> | ->] & _); exact I. }
  repeat (apply Forall_app; split); fa; try exact I; try (eapply IE; eassumption).
  - apply build_bounds with (n := n); auto.
  - apply (loop_bounds _ _ pos hh axis cofm _ _ n m); auto.
Qed.

Lemma interp_safe_aux : forall q m n, interp_sound q m n ->
  snd (interpolate q) = Returned /\ Forall (in_bounds (interp_args q) (Z.of_nat n * q_nbins q * 8)) (fst (interpolate q)).
Proof.
  intros q m n (Sp & Sd & Sh & Sv & Sa & Sc & T & B & M & X).
  destruct (interp_accepted q (Z.of_nat n) (Z.of_nat m) [] T B Sc) as (pos & vel & dens & temp & h & axis & cofm & e1 & e2 & e3 & e4 & e5 & e6 & e7 & C1 & C2 & C3 & C4 & C5 & C6 & C7 & E);
    try (eexists; eassumption).
  rewrite E. split; [reflexivity|]. cbn [fst]. rewrite !Nat2Z.id. set (out := Z.of_nat n * q_nbins q * 8).
  destruct T as (T1 & T2 & T3 & T4 & T5 & T6 & T7).
  assert (Bp : bytes (interp_args q) out pos = Some (Z.of_nat m * 3 * 4)).
  { rewrite (got_bytes 0 _ _ _ (interp_args q) out _ _ C1 eq_refl Sp T1). apply f_equal. cbn [fold_right itemsize]. ring. }
  assert (Bd : bytes (interp_args q) out dens = Some (Z.of_nat m * 4)).
  { rewrite (got_bytes 2 _ _ _ (interp_args q) out _ _ C2 eq_refl Sd T3). apply f_equal. cbn [fold_right itemsize]. ring. }
  assert (Bh : bytes (interp_args q) out h = Some (Z.of_nat m * 4)).
  { rewrite (got_bytes 4 _ _ _ (interp_args q) out _ _ C3 eq_refl Sh T5). apply f_equal. cbn [fold_right itemsize]. ring. }
  assert (Bc : bytes (interp_args q) out cofm = Some (Z.of_nat n * 3 * 8)).
  { rewrite (got_bytes 6 _ _ _ (interp_args q) out _ _ C4 eq_refl Sc T6). apply f_equal. cbn [fold_right itemsize]. ring. }
  assert (Ba : bytes (interp_args q) out axis = Some (Z.of_nat n * 4)).
  { rewrite (got_bytes 5 _ _ _ (interp_args q) out _ _ C5 eq_refl Sa T7). apply f_equal. cbn [fold_right itemsize]. ring. }
  assert (Bt : q_tau q = true -> bytes (interp_args q) out vel = Some (Z.of_nat m * 3 * 4) /\ bytes (interp_args q) out temp = Some (Z.of_nat m * 4)).
  { intros Q. destruct (Sv Q) as (Sv1 & Sv2). split.
    - rewrite (got_bytes 1 _ _ _ (interp_args q) out _ _ C6 eq_refl Sv1 T2). apply f_equal. cbn [fold_right itemsize]. ring.
    - rewrite (got_bytes 3 _ _ _ (interp_args q) out _ _ C7 eq_refl Sv2 T4). apply f_equal. cbn [fold_right itemsize]. ring. }
  assert (forall k a o e, contiguous k a = (o, e) -> in_bounds (interp_args q) out e) as IE.
  { intros k a o e C. destruct (contiguous_spec k a o e C) as ([-> | ->] & _); exact I. }
  pose proof X as (V & N & J & Y).
  unfold interp_trace. repeat (apply Forall_app; split); fa; try exact I; try (eapply IE; eassumption).
  - apply build_bounds with (n := n); auto.
  - destruct (q_tau q); fa; eapply IE; eassumption.
  - apply (loop_bounds _ _ pos h axis cofm _ _ n m); auto.
  - apply Forall_flat_map'. intros l I. apply in_seq in I. apply (line_bounds _ q pos vel dens temp h axis cofm m n l); auto. lia.
  - destruct (q_tau q); fa; exact I.
Qed.

(** ** What is not checked *)

Lemma ib_fail : forall args out o w i b, bytes args out o = Some b -> b < (i + 1) * w \/ i < 0 -> ~ in_bounds args out (Read o w i).
Proof. intros args out o w i b B S (I & b' & B' & L). rewrite B in B'. injection B' as <-. lia. Qed.

Lemma near_unchecked_aux : forall q i, snd (near_lines q) = Returned -> (exists p, first_dim (n_pos q) p /\ Z.of_nat i < p) -> elements (n_hh q) <= Z.of_nat i ->
  forall out, exists e, In e (fst (near_lines q)) /\ ~ in_bounds (near_args q) out e.
Proof.
  intros q i Rt (p & (rp & Sp) & L) El out. destruct (near_outcome_aux q) as ((O & _) & _). apply O in Rt as ((n & p' & r1 & r2 & r3 & Sc & Sa & Sp') & (Tc & Ta) & Tp & Th).
  rewrite Sp in Sp'. injection Sp' as <- <-.
  unfold near_lines, ndim, dim. rewrite Sc, Sa, Sp. cbn [length nth_error Nat.ltb Nat.leb orb]. rewrite Z.eqb_refl. cbn [negb orb Z.eqb Pos.eqb].
  pose proof Th as Th'. apply check_double_spec in Tc. apply check_int_spec in Ta. apply check_float_spec in Tp, Th. rewrite Tc, Ta, Tp, Th. cbn [orb].
  destruct (contiguous 3 (n_cofm q)) as [cofm e1] eqn:C1, (contiguous 2 (n_axis q)) as [axis e2] eqn:C2, (contiguous 0 (n_pos q)) as [pos e3] eqn:C3,
    (contiguous 1 (n_hh q)) as [hh e4] eqn:C4. cbn [fst].
  exists (Read hh 4 (zn i)). split.
  - do 3 (apply in_or_app; right). apply in_or_app. left. unfold loop_reads. apply in_flat_map. exists i. split; [apply in_seq; lia|now left].
  - assert (nth_error (near_args q) 1 = Some (n_hh q)) as N1 by reflexivity. destruct (contiguous_spec _ _ _ _ C4) as (_ & _ & H).
    eapply ib_fail; [apply H; exact N1|]. rewrite Th'. cbn. unfold zn. lia.
Qed.

Lemma interp_unchecked_aux : forall q n l p, snd (interpolate q) = Returned -> first_dim (q_cofm q) n -> Z.of_nat l < n -> In p (q_near q l) ->
  (q_tau q = true /\ (elements (q_vel q) < 3 * Z.of_nat p + q_values q l \/ elements (q_temp q) <= Z.of_nat p)) \/
  elements (q_pos q) < 3 * Z.of_nat p + q_values q l \/ 3 * Z.of_nat p + q_values q l < 1 \/ 2147483648 < 3 * Z.of_nat p + q_values q l ->
  forall out, exists e, In e (fst (interpolate q)) /\ ~ in_bounds (interp_args q) out e.
Proof.
  intros q n l p Rt (rn & Fn) L NP Bad out. destruct (interp_outcome_aux q) as ((O & _) & _). apply O in Rt as (T & (n' & m & r & Sc & Sa & Sp & Sd & Sh) & B).
  rewrite Sc in Fn. injection Fn as <- <-.
  destruct (interp_accepted q n' m r T B Sc Sa Sp Sd Sh) as (pos & vel & dens & temp & h & axis & cofm & e1 & e2 & e3 & e4 & e5 & e6 & e7 & C1 & C2 & C3 & C4 & C5 & C6 & C7 & E).
  rewrite E. cbn [fst]. destruct T as (T1 & T2 & T3 & T4 & T5 & T6 & T7).
  assert (IN : forall e, In e (line_accesses q pos vel dens temp h axis cofm l) ->
    In e (interp_trace q (Z.to_nat m) (Z.to_nat n') pos vel dens temp h axis cofm e1 e2 e3 e4 e5 e6 e7)).
  { intros e I. unfold interp_trace. cbv zeta. do 3 (apply in_or_app; right). apply in_or_app. left. apply in_flat_map. exists l. split; [apply in_seq; lia|exact I]. }
  assert (PP : forall e, In e ((int_read pos (3 * zn p + q_values q l - 1) :: (if q_tau q then [int_read vel (3 * zn p + q_values q l - 1)] else [])) ++
      (Read dens 4 (zn p) :: (if q_tau q then [Read temp 4 (zn p)] else []) ++ (if q_mesh q then [] else [Read h 4 (zn p)])) ++
      map (fun j => Write Output 8 (row (zn l) (q_nbins q) + j)) (q_bins q l p)) ->
    In e (interp_trace q (Z.to_nat m) (Z.to_nat n') pos vel dens temp h axis cofm e1 e2 e3 e4 e5 e6 e7)).
  { intros e I. apply IN. unfold line_accesses. apply in_or_app. right. right. apply in_flat_map. exists p. split; [exact NP|exact I]. }
  assert (IR : forall k a o e, contiguous k a = (o, e) -> nth_error (interp_args q) k = Some a -> a_type a = Float32 ->
      elements a < 3 * Z.of_nat p + q_values q l \/ 3 * Z.of_nat p + q_values q l < 1 \/ 2147483648 < 3 * Z.of_nat p + q_values q l ->
      ~ in_bounds (interp_args q) out (int_read o (3 * zn p + q_values q l - 1))).
  { intros k a o e C Nk Tk S. unfold int_read. destruct (_ <=? 2147483647) eqn:Z0; [apply Z.leb_le in Z0|intros []].
    eapply ib_fail; [apply (contiguous_spec _ _ _ _ C); exact Nk|]. rewrite Tk. cbn [itemsize]. unfold zn in *. lia. }
  destruct Bad as [(Q & [Bad|Bad])|Bad].
  - exists (int_read vel (3 * zn p + q_values q l - 1)). split; [apply PP; rewrite Q; right; now left|]. apply (IR 1%nat (q_vel q) vel e6 C6 eq_refl T2). now left.
  - exists (Read temp 4 (zn p)). split.
    + apply PP. rewrite Q. apply in_or_app. right. right. now left.
    + assert (nth_error (interp_args q) 3 = Some (q_temp q)) as N3 by reflexivity. eapply ib_fail; [apply (contiguous_spec _ _ _ _ C7); exact N3|]. rewrite T4. cbn [itemsize]. unfold zn. lia.
  - exists (int_read pos (3 * zn p + q_values q l - 1)). split; [apply PP; now left|]. apply (IR 0%nat (q_pos q) pos e1 C1 eq_refl T1). lia.
Qed.

(** ** Rows of the result *)

Lemma rows_aux : forall n nb, (0 < n)%nat -> 0 < nb ->
  ((forall l1 l2 j1 j2, (l1 < n)%nat -> (l2 < n)%nat -> 0 <= j1 < nb -> 0 <= j2 < nb ->
     row (Z.of_nat l1) nb + j1 = row (Z.of_nat l2) nb + j2 -> l1 = l2 /\ j1 = j2) <-> (Z.of_nat n - 1) * nb < 4294967296).
Proof.
  intros n nb N B. split.
  - intros H. destruct (Z_lt_le_dec ((Z.of_nat n - 1) * nb) 4294967296) as [L|G]; [exact L|exfalso].
    set (l := (4294967296 + nb - 1) / nb).
    assert (L1 : 4294967296 <= l * nb < 4294967296 + nb).
    { unfold l. pose proof (Z.div_mod (4294967296 + nb - 1) nb ltac:(lia)) as D. pose proof (Z.mod_pos_bound (4294967296 + nb - 1) nb B). nia. }
    assert (L2 : 0 < l <= Z.of_nat n - 1) by nia.
    assert (nb <= 4294967296 \/ 4294967296 < nb) as [S|S] by lia.
    + destruct (H (Z.to_nat l) 0%nat 0 (l * nb - 4294967296)) as (E & _); try lia.
      unfold row. rewrite Z2Nat.id by lia. cbn [Z.of_nat]. rewrite Z.mul_0_l, Z.mod_0_l by lia.
      rewrite <- (Z_mod_plus_full (l * nb) (-1) 4294967296). rewrite Z.mod_small by lia. lia.
    + (* a single row is larger than the range of the index *)
      assert (l = 1) by nia. rewrite H0 in *.
      set (r := nb mod 4294967296). assert (0 <= r < 4294967296) by (apply Z.mod_pos_bound; lia).
      destruct (H 1%nat 0%nat 0 r) as (E & _); try lia.
      unfold row. rewrite Nat2Z.inj_0, Z.mul_0_l, Z.mod_0_l by lia. change (Z.of_nat 1) with 1. rewrite Z.mul_1_l. fold r. lia.
  - intros L l1 l2 j1 j2 L1 L2 J1 J2. unfold row. rewrite !Z.mod_small by nia. intros E.
    assert (l1 = l2) by nia. subst. split; [reflexivity|]. lia.
Qed.

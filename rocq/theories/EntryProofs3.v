(** Proofs for C89 and C90: references of whole calls, the two smaller functions, and the calls the package makes. *)
From Coq Require Import List Bool ZArith Arith Lia.
From Verif Require Import EntryModel EntrySpec EntryProofs EntryProofs2.
From Verif Require ParticleModel ParticleProofs.
Import ListNotations.
Local Open Scope Z_scope.

Definition ind (x o : obj) : Z := if obj_eqb x o then 1 else 0.

Lemma ind_refl : forall o, ind o o = 1.
Proof. intros [k|k| |]; unfold ind; cbn; try rewrite Nat.eqb_refl; reflexivity. Qed.
Lemma ind_nonneg : forall x o, 0 <= ind x o.
Proof. intros x o. unfold ind. destruct (obj_eqb x o); lia. Qed.

Definition got (e : event) (o : obj) : Prop := e = Incref o \/ e = Create o.

Lemma gained_got : forall x e o tr, got e o -> gained x (e :: tr) = ind x o + gained x tr.
Proof. intros x e o tr [-> | ->]; reflexivity. Qed.
Lemma gained_drop : forall x o tr, gained x (Decref o :: tr) = gained x tr - ind x o.
Proof. intros x o tr. cbn [gained change]. unfold ind. destruct (obj_eqb x o); lia. Qed.

Lemma hold_pos : forall o c, 0 < c o -> hold o c.
Proof. intros [k|k| |] c H; cbn; lia. Qed.

Lemma alive_got : forall e o c tr, got e o -> alive_from (fun x => c x + ind x o) tr -> alive_from c (e :: tr).
Proof. intros e o c tr [-> | ->] H; (split; [exact I|]); exact H. Qed.
Lemma alive_drop : forall o c tr, 0 < c o -> alive_from (fun x => c x - ind x o) tr -> alive_from c (Decref o :: tr).
Proof.
  intros o c tr P H. split; [now apply hold_pos|]. apply (alive_ext tr (fun x => c x - ind x o)); [|exact H].
  intros x. cbn. unfold ind. destruct (obj_eqb x o); lia.
Qed.
Lemma alive_use : forall L seg c tr, Forall (uses L) seg -> (forall o, In o L -> 0 < c o) -> alive_from c tr -> alive_from c (seg ++ tr).
Proof.
  intros L seg c tr U H A. apply alive_app; [apply (alive_uses L); [exact U|]; intros o I; apply hold_pos, H, I|].
  apply (alive_ext tr c); [|exact A]. intros o. rewrite (gained_uses o L seg U). ring.
Qed.

Lemma contiguous_got : forall k a o e, contiguous k a = (o, e) -> got e o.
Proof. intros k a o e C. apply (contiguous_spec k a o e C). Qed.

(** Counts of the shape [sum of ind]: positive at an object that is among them. *)
Ltac note_ind := repeat match goal with |- context [ind ?x ?y] => lazymatch goal with
    | _ : 0 <= ind x y |- _ => fail | _ => pose proof (ind_nonneg x y) end end.
Ltac pos_ind := cbn beta; note_ind; rewrite ?ind_refl in *; lia.
Ltac members := let o := fresh "o" in let I := fresh "I" in intros o I; cbn in I;
  repeat (destruct I as [<- |I]; [pos_ind|]); destruct I.

(** ** Near lines *)

Lemma near_accepted : forall q, snd (near_lines q) = Returned -> exists np nl cofm e1 axis e2 pos e3 hh e4,
  contiguous 3 (n_cofm q) = (cofm, e1) /\ contiguous 2 (n_axis q) = (axis, e2) /\ contiguous 0 (n_pos q) = (pos, e3) /\ contiguous 1 (n_hh q) = (hh, e4) /\
  fst (near_lines q) = [e1; e2] ++ build_reads axis cofm (mkLines nl (n_values q)) ++ [e3; e4] ++
         loop_reads pos hh axis cofm (mkLines nl (n_values q)) (n_visit q) np ++
         [Create Output; Incref Output; Decref Output; Decref pos; Decref hh; Decref cofm; Decref axis].
Proof.
  intros q Rt. destruct (near_outcome_aux q) as ((O & _) & _). apply O in Rt as ((n & p & r1 & r2 & r3 & Sc & Sa & Sp) & (Tc & Ta) & Tp & Th).
  destruct (contiguous 3 (n_cofm q)) as [cofm e1] eqn:C1, (contiguous 2 (n_axis q)) as [axis e2] eqn:C2, (contiguous 0 (n_pos q)) as [pos e3] eqn:C3,
    (contiguous 1 (n_hh q)) as [hh e4] eqn:C4.
  exists (Z.to_nat p), (Z.to_nat n), cofm, e1, axis, e2, pos, e3, hh, e4. repeat (split; [reflexivity|]).
  unfold near_lines, ndim, dim. rewrite Sc, Sa, Sp. cbn [length nth_error Nat.ltb Nat.leb orb]. rewrite Z.eqb_refl. cbn [negb orb Z.eqb Pos.eqb].
  apply check_double_spec in Tc. apply check_int_spec in Ta. apply check_float_spec in Tp, Th. rewrite Tc, Ta, Tp, Th. cbn [orb].
  rewrite C1, C2, C3, C4. reflexivity.
Qed.

Lemma near_refs_aux : forall q, snd (near_lines q) <> Undefined -> balanced (fst (near_lines q)) (snd (near_lines q)) /\ alive (fst (near_lines q)).
Proof.
  intros q D. destruct (snd (near_lines q)) as [e| |] eqn:Rt; [|clear D|congruence].
  { destruct (near_outcome_aux q) as (_ & _ & _ & H). rewrite H by congruence. split; [intros [] ; reflexivity|]. intros [|] ? ? X; discriminate. }
  destruct (near_accepted q Rt) as (np & nl & cofm & e1 & axis & e2 & pos & e3 & hh & e4 & C1 & C2 & C3 & C4 & E). rewrite E.
  apply contiguous_got in C1, C2, C3, C4.
  pose proof (build_uses axis cofm (mkLines nl (n_values q))) as U1. pose proof (loop_uses pos hh axis cofm (mkLines nl (n_values q)) (n_visit q) np) as U2.
  set (b := build_reads _ _ _) in *. set (w := loop_reads _ _ _ _ _ _ _) in *. clearbody b w. split.
  - intros x. rewrite !gained_app, (gained_uses x _ b U1), (gained_uses x _ w U2).
    rewrite (gained_got x e1 cofm _ C1), (gained_got x e2 axis _ C2), (gained_got x e3 pos _ C3), (gained_got x e4 hh _ C4).
    rewrite (gained_got x (Create Output) Output _ (or_intror eq_refl)), (gained_got x (Incref Output) Output _ (or_introl eq_refl)), !gained_drop. cbn [gained].
    transitivity (ind x Output); [ring|]. destruct x; reflexivity.
  - apply alive_start. cbn [app]. apply (alive_got _ _ _ _ C1), (alive_got _ _ _ _ C2). apply (alive_use _ _ _ _ U1); [members|].
    apply (alive_got _ _ _ _ C3), (alive_got _ _ _ _ C4). apply (alive_use _ _ _ _ U2); [members|].
    apply (alive_got _ Output); [now right|]. apply (alive_got _ Output); [now left|].
    do 5 (apply alive_drop; [pos_ind|]). exact I.
Qed.

(** ** Interpolation *)

Lemma interp_refs_aux : forall q, snd (interpolate q) <> Undefined -> balanced (fst (interpolate q)) (snd (interpolate q)) /\ alive (fst (interpolate q)).
Proof.
  intros q D. destruct (interp_outcome_aux q) as ((O & _) & _ & _ & H). destruct (snd (interpolate q)) as [e| |] eqn:Rt; [|clear D H|congruence].
  { rewrite (H e eq_refl). split; [intros [] ; reflexivity|]. intros [|] ? ? X; discriminate. }
  destruct (O eq_refl) as (T & (n & m & r & Sc & Sa & Sp & Sd & Sh) & B).
  destruct (interp_accepted q n m r T B Sc Sa Sp Sd Sh) as (pos & vel & dens & temp & h & axis & cofm & e1 & e2 & e3 & e4 & e5 & e6 & e7 & C1 & C2 & C3 & C4 & C5 & C6 & C7 & E).
  rewrite E. cbn [fst]. apply contiguous_got in C1, C2, C3, C4, C5, C6, C7. unfold interp_trace. cbv zeta.
  pose proof (build_uses axis cofm (mkLines (Z.to_nat n) (q_values q))) as U1.
  pose proof (loop_uses pos h axis cofm (mkLines (Z.to_nat n) (q_values q)) (q_visit q) (Z.to_nat m)) as U2.
  assert (U3 : Forall (uses (if q_tau q then [pos; dens; h; axis; cofm; Output; vel; temp] else [pos; dens; h; axis; cofm; Output]))
    (flat_map (line_accesses q pos vel dens temp h axis cofm) (seq 0 (Z.to_nat n)))).
  { apply Forall_flat_map'. intros l _. apply line_uses; destruct (q_tau q); try discriminate; intros; intros z Iz; cbn in *; tauto. }
  set (b := build_reads _ _ _) in *. set (w := loop_reads _ _ _ _ _ _ _) in *. set (a := flat_map _ _) in *. clearbody b w a. split.
  - intros x. rewrite !gained_app, (gained_uses x _ b U1), (gained_uses x _ w U2), (gained_uses x _ a U3).
    rewrite (gained_got x e1 pos _ C1), (gained_got x e2 dens _ C2), (gained_got x e3 h _ C3), (gained_got x e4 cofm _ C4), (gained_got x e5 axis _ C5).
    rewrite (gained_got x (Create Output) Output _ (or_intror eq_refl)), (gained_got x (Incref Output) Output _ (or_introl eq_refl)).
    destruct (q_tau q); rewrite ?(gained_got x e6 vel _ C6), ?(gained_got x e7 temp _ C7), !gained_drop; cbn [gained];
      (transitivity (ind x Output); [ring|]); destruct x; reflexivity.
  - apply alive_start. rewrite <- !app_assoc. cbn [app].
    apply (alive_got _ _ _ _ C1), (alive_got _ _ _ _ C2), (alive_got _ _ _ _ C3), (alive_got _ _ _ _ C4), (alive_got _ _ _ _ C5).
    apply (alive_use _ _ _ _ U1); [members|]. destruct (q_tau q); cbn [app].
    + apply (alive_got _ _ _ _ C6), (alive_got _ _ _ _ C7). apply (alive_got _ Output); [now right|].
      apply (alive_use _ _ _ _ U2); [members|]. apply (alive_use _ _ _ _ U3); [members|].
      apply (alive_got _ Output); [now left|]. do 8 (apply alive_drop; [pos_ind|]). exact I.
    + apply (alive_got _ Output); [now right|].
      apply (alive_use _ _ _ _ U2); [members|]. apply (alive_use _ _ _ _ U3); [members|].
      apply (alive_got _ Output); [now left|]. do 6 (apply alive_drop; [pos_ind|]). exact I.
Qed.

(** ** Rescaling *)

Lemma rescale_reads_uses : forall o nb k, Forall (uses [o]) (flat_map (fun _ : nat => map (fun i => Read o 8 (zn i)) (seq 0 (Z.to_nat nb))) (seq 0 k)).
Proof. intros. apply Forall_flat_map'. intros _ _. apply Forall_forall. intros e I. apply in_map_iff in I as (i & <- & _). cbn. now left. Qed.

Lemma rescale_bounds_aux : forall tau nb passes out, a_type tau = Float64 -> 0 < nb -> (0 < passes)%nat ->
  snd (rescale tau nb passes) = Returned /\ (Forall (in_bounds [tau] out) (fst (rescale tau nb passes)) <-> nb <= elements tau).
Proof.
  intros tau nb passes out T P Q. unfold rescale. destruct (contiguous 0 tau) as [o e] eqn:C.
  destruct (contiguous_spec _ _ _ _ C) as (G & _ & B). specialize (B [tau] out eq_refl). rewrite T in B. cbn [itemsize] in B.
  pose proof T as T'. apply check_double_spec in T'. rewrite T'. split; [reflexivity|]. cbn [fst]. split.
  - intros F. rewrite Forall_forall in F. destruct (F (Read o 8 (nb - 1))) as (_ & b & Bb & L).
    + right. apply in_or_app. left. apply in_flat_map. exists 0%nat. split; [apply in_seq; lia|]. apply in_map_iff. exists (Z.to_nat (nb - 1)).
      split; [f_equal; unfold zn; lia|apply in_seq; lia].
    + rewrite B in Bb. injection Bb as <-. lia.
  - intros L. constructor; [destruct G as [-> | ->]; exact I|]. apply Forall_app. split; [|repeat constructor].
    apply Forall_flat_map'. intros _ _. apply Forall_forall. intros x I. apply in_map_iff in I as (i & <- & J). apply in_seq in J.
    apply ib_read with (b := elements tau * 8); [exact B|unfold zn; lia|unfold zn; lia].
Qed.

Lemma rescale_refs_aux : forall tau nb passes,
  (a_type tau = Float64 -> snd (rescale tau nb passes) = Returned /\ (forall o, gained o (fst (rescale tau nb passes)) = 0) /\ alive (fst (rescale tau nb passes))) /\
  (a_type tau <> Float64 -> snd (rescale tau nb passes) = Raised TypeError /\
     gained (if a_contig tau then Arg 0 else Copy 0) (fst (rescale tau nb passes)) = 1).
Proof.
  intros tau nb passes. unfold rescale. destruct (contiguous 0 tau) as [o e] eqn:C. pose proof (contiguous_got _ _ _ _ C) as G. split; intros T.
  - apply check_double_spec in T. rewrite T. split; [reflexivity|]. cbn [fst]. pose proof (rescale_reads_uses o nb passes) as U. set (l := flat_map _ _) in *. clearbody l. split.
    + intros x. rewrite (gained_got x e o _ G), gained_app, (gained_uses x _ l U), gained_drop. cbn [gained]. ring.
    + apply alive_start. apply (alive_got _ _ _ _ G). apply (alive_use _ _ _ _ U); [members|]. apply alive_drop; [pos_ind|]. exact I.
  - assert (check_double tau = true) as -> by (destruct (check_double tau) eqn:X; [reflexivity|apply check_double_spec in X; contradiction]).
    split; [reflexivity|]. unfold contiguous in C. destruct (a_contig tau); injection C as <- <-; reflexivity.
Qed.

(** ** Interpolation in a table *)

Lemma doubles_bounds : forall args out k a n, nth_error args k = Some a -> 0 < n ->
  (Forall (in_bounds args out) (doubles (Arg k) n) <-> holds_doubles a n).
Proof.
  intros args out k a n N P. unfold doubles, holds_doubles. split.
  - intros F. rewrite Forall_forall in F. destruct (F (Read (Arg k) 8 (n - 1))) as (_ & b & B & L).
    + apply in_map_iff. exists (Z.to_nat (n - 1)). split; [f_equal; unfold zn; lia|apply in_seq; lia].
    + cbn in B. rewrite N in B. destruct (a_contig a); [|discriminate]. injection B as <-. split; [reflexivity|lia].
  - intros (C & L). apply Forall_forall. intros e I. apply in_map_iff in I as (i & <- & J). apply in_seq in J.
    apply ib_read with (b := elements a * itemsize (a_type a)); [cbn; rewrite N, C; reflexivity|unfold zn; lia|unfold zn; lia].
Qed.

Lemma table_bounds_aux : forall q nx ny m, a_type (t_a q) = Float32 -> a_type (t_b q) = Float32 ->
  first_dim (t_x q) nx -> first_dim (t_y q) ny -> a_shape (t_a q) = [m] -> 0 < nx -> 0 < ny -> 0 < m ->
  snd (interpolate_2d q) = (if t_bad q then Raised AttributeError else Returned) /\
  (Forall (in_bounds (table_args q) (m * 4)) (fst (interpolate_2d q)) <->
   holds_doubles (t_x q) nx /\ holds_doubles (t_y q) ny /\ holds_doubles (t_grid q) (nx * ny) /\ m <= elements (t_b q)).
Proof.
  intros q nx ny m Ta Tb (rx & Sx) (ry & Sy) Sa Px Py Pm. unfold interpolate_2d.
  pose proof Ta as Ta'. pose proof Tb as Tb'. apply check_float_spec in Ta', Tb'. rewrite Ta', Tb'. cbn [orb]. unfold dim. rewrite Sx, Sy, Sa. cbn [nth_error].
  destruct (contiguous 0 (t_a q)) as [a e1] eqn:C1, (contiguous 1 (t_b q)) as [b e2] eqn:C2.
  assert (N0 : nth_error (table_args q) 0 = Some (t_a q)) by reflexivity. assert (N1 : nth_error (table_args q) 1 = Some (t_b q)) by reflexivity.
  destruct (contiguous_spec _ _ _ _ C1) as (G1 & _ & B1). specialize (B1 (table_args q) (m * 4) N0).
  destruct (contiguous_spec _ _ _ _ C2) as (G2 & _ & B2). specialize (B2 (table_args q) (m * 4) N1).
  rewrite Ta in B1. rewrite Tb in B2. cbn [itemsize] in B1, B2.
  assert (El : elements (t_a q) = m) by (unfold elements; rewrite Sa; cbn [fold_right]; ring).
  assert (IE : forall e o, got e o -> in_bounds (table_args q) (m * 4) e) by (intros e o [-> | ->]; exact I).
  set (loop := flat_map _ _).
  assert (L : Forall (in_bounds (table_args q) (m * 4)) loop <-> m <= elements (t_b q)).
  { unfold loop. split.
    - intros F. rewrite Forall_forall in F. destruct (F (Read b 4 (m - 1))) as (_ & c & Bc & L).
      + apply in_flat_map. exists (Z.to_nat (m - 1)). split; [apply in_seq; lia|]. right. left. f_equal. unfold zn. lia.
      + rewrite B2 in Bc. injection Bc as <-. lia.
    - intros L. apply Forall_flat_map'. intros i J. apply in_seq in J. unfold zn.
      fa; [eapply ib_read; [exact B1|lia|lia]|eapply ib_read; [exact B2|lia|lia]|eapply ib_write; [reflexivity|lia|lia]]. }
  clearbody loop. rewrite <- (doubles_bounds (table_args q) (m * 4) 2 (t_x q) nx eq_refl Px), <- (doubles_bounds (table_args q) (m * 4) 3 (t_y q) ny eq_refl Py),
    <- (doubles_bounds (table_args q) (m * 4) 4 (t_grid q) (nx * ny) eq_refl ltac:(nia)), <- L.
  destruct (t_bad q); (split; [reflexivity|]); cbn [fst]; rewrite !Forall_app; split; intros H.
  - tauto.
  - repeat split; try tauto. fa; try exact I; eapply IE; eassumption.
  - tauto.
  - repeat split; try tauto; fa; try exact I; eapply IE; eassumption.
Qed.

Lemma table_leak_aux : forall q nx ny m, a_type (t_a q) = Float32 -> a_type (t_b q) = Float32 ->
  first_dim (t_x q) nx -> first_dim (t_y q) ny -> first_dim (t_a q) m ->
  gained (if a_contig (t_a q) then Arg 0 else Copy 0) (fst (interpolate_2d q)) = 1 /\
  gained (if a_contig (t_b q) then Arg 1 else Copy 1) (fst (interpolate_2d q)) = 1 /\
  gained Output (fst (interpolate_2d q)) = 1 /\
  gained Interpolator (fst (interpolate_2d q)) = if t_bad q then 1 else 0.
Proof.
  intros q nx ny m Ta Tb (rx & Sx) (ry & Sy) (ra & Sa). unfold interpolate_2d.
  apply check_float_spec in Ta, Tb. rewrite Ta, Tb. cbn [orb]. unfold dim. rewrite Sx, Sy, Sa. cbn [nth_error].
  destruct (contiguous 0 (t_a q)) as [a e1] eqn:C1, (contiguous 1 (t_b q)) as [b e2] eqn:C2.
  pose proof (contiguous_got _ _ _ _ C1) as G1. pose proof (contiguous_got _ _ _ _ C2) as G2.
  set (loop := flat_map _ _).
  assert (U : Forall (uses [a; b; Output]) loop).
  { apply Forall_flat_map'. intros i _. fa; cbn; auto. }
  assert (D : forall k n, Forall (uses [Arg k]) (doubles (Arg k) n)).
  { intros k n. apply Forall_forall. intros e I. apply in_map_iff in I as (i & <- & _). cbn. now left. }
  clearbody loop.
  assert (K : forall x, gained x (fst (if t_bad q then ([e1; e2; Create Output; Create Interpolator] ++ doubles (Arg 2) nx ++ doubles (Arg 3) ny ++ doubles (Arg 4) (nx * ny) ++ loop, Raised AttributeError)
     else (([e1; e2; Create Output; Create Interpolator] ++ doubles (Arg 2) nx ++ doubles (Arg 3) ny ++ doubles (Arg 4) (nx * ny) ++ loop) ++ [Decref Interpolator; Incref Output; Decref Output], Returned)))
    = ind x a + ind x b + ind x Output + (if t_bad q then ind x Interpolator else 0)).
  { intros x. destruct (t_bad q); cbn [fst]; rewrite !gained_app, !(gained_uses x _ _ (D _ _)), (gained_uses x _ _ U), (gained_got x e1 a _ G1), (gained_got x e2 b _ G2),
      (gained_got x (Create Output) Output _ (or_intror eq_refl)), (gained_got x (Create Interpolator) Interpolator _ (or_intror eq_refl)).
    - cbn [gained]. ring.
    - rewrite gained_drop, (gained_got x (Incref Output) Output _ (or_introl eq_refl)), gained_drop. cbn [gained]. ring. }
  cbv zeta. rewrite !K. unfold contiguous in C1, C2.
  destruct (a_contig (t_a q)); injection C1 as <- <-; destruct (a_contig (t_b q)); injection C2 as <- <-; destruct (t_bad q); cbn; auto.
Qed.

(** ** The calls of the package *)

Lemma gather_len : forall {A} (arr : list A) ind out, ParticleModel.gather arr ind = Some out -> length out = length ind.
Proof.
  intros A arr ind. induction ind as [|i ind IH]; intros out; cbn; [intros E; now injection E as <-|].
  destruct (nth_error arr i); [|discriminate]. destruct (ParticleModel.gather arr ind) as [xs|]; [|discriminate]. intros E. injection E as <-. cbn. now rewrite (IH xs).
Qed.

Lemma zip_len : forall f a b, length a = length b -> length (ParticleModel.zip f a b) = length a.
Proof. intros f a. induction a as [|x a IH]; intros [|y b] E; try discriminate; [reflexivity|]. cbn in *. f_equal. apply IH. lia. Qed.

Lemma clamp_len : forall b a, length (ParticleModel.clamp_array b a) = length a.
Proof. intros b a. unfold ParticleModel.clamp_array. destruct (ParticleModel.leaves b a); rewrite ?map_length; reflexivity. Qed.

Definition same_lengths (r : ParticleModel.request) (a : ParticleModel.arrays) : Prop :=
  length (ParticleModel.a_den a) = length (ParticleModel.a_pos a) /\ length (ParticleModel.a_hh a) = length (ParticleModel.a_pos a) /\
  (ParticleModel.r_tau r = true -> length (ParticleModel.a_vel a) = length (ParticleModel.a_pos a) /\ length (ParticleModel.a_temp a) = length (ParticleModel.a_pos a)).

Lemma read_lengths : forall tb r s ind a, ParticleModel.read_indexed tb r s ind = ParticleModel.Read a -> same_lengths r a.
Proof.
  intros tb r s ind a. unfold ParticleModel.read_indexed. destruct ind as [|i0 ind0]; [discriminate|]. set (ind := i0 :: ind0). clearbody ind. unfold ParticleModel.bind.
  destruct (ParticleModel.gather (ParticleModel.s_pos s) ind) as [pos|] eqn:Ep; [|discriminate]. destruct (ParticleModel.gather (ParticleModel.s_hh s) ind) as [hh|] eqn:Eh; [|discriminate].
  destruct (if ParticleModel.r_tau r then _ else _) as [vel|] eqn:Ev; [|discriminate]. destruct (ParticleModel.gather (ParticleModel.s_rho s) ind) as [den|] eqn:Ed; [|discriminate].
  destruct (if ParticleModel.needs_temp r then _ else _) as [temp|] eqn:Et; [|discriminate]. destruct (ParticleModel.gather (ParticleModel.s_frac s) ind) as [frac|] eqn:Ef; [|discriminate].
  apply gather_len in Ep, Eh, Ed, Ef.
  assert (Lv : ParticleModel.r_tau r = true -> length vel = length ind /\ length temp = length ind).
  { intros T. unfold ParticleModel.needs_temp in Et. rewrite T in Ev, Et. cbn [orb] in Et. apply gather_len in Ev. split; [exact Ev|].
    destruct (ParticleModel.gather (ParticleModel.s_temp s) ind) as [t0|] eqn:Eg; [|discriminate]. cbn in Et. injection Et as <-. rewrite map_length. apply gather_len in Eg. exact Eg. }
  set (elem := ParticleModel.zip Rdefinitions.Rmult _ _).
  assert (Le : length elem = length ind) by (unfold elem; rewrite zip_len; rewrite !map_length; congruence). clearbody elem.
  destruct (_ && _).
  - destruct (ParticleModel.gather (ParticleModel.s_hi s) ind) as [hi|] eqn:Ehi; [|discriminate]. apply gather_len in Ehi. intros E. injection E as <-.
    unfold same_lengths. cbn. rewrite map_length, zip_len by congruence. repeat split; try congruence; apply Lv in H; destruct H; congruence.
  - destruct (negb _).
    + destruct (ParticleModel.where_positive 0 elem) as [|i1 ind1]; [discriminate|]. set (ind2 := i1 :: ind1). clearbody ind2.
      destruct (ParticleModel.gather temp ind2) as [temp2|] eqn:E1; [|discriminate]. destruct (ParticleModel.gather pos ind2) as [pos2|] eqn:E2; [|discriminate].
      destruct (ParticleModel.gather hh ind2) as [hh2|] eqn:E3; [|discriminate]. destruct (if ParticleModel.r_tau r then ParticleModel.gather vel ind2 else Some vel) as [vel2|] eqn:E4; [|discriminate].
      destruct (ParticleModel.gather elem ind2) as [elem2|] eqn:E5; [|discriminate]. destruct (ParticleModel.gather den ind2) as [den2|] eqn:E6; [|discriminate].
      apply gather_len in E1, E2, E3, E5, E6. intros E. injection E as <-. unfold same_lengths. cbn. unfold ParticleModel.get_elem_den.
      rewrite map_length, zip_len by (rewrite zip_len; rewrite !clamp_len; congruence).
      repeat split; try congruence; rewrite H in E4; apply gather_len in E4; congruence.
    + intros E. injection E as <-. unfold same_lengths. cbn. rewrite map_length. repeat split; try congruence; apply Lv in H; destruct H; congruence.
Qed.

Lemma load_lengths : forall r rest first a, (forall b, first = ParticleModel.Read b -> same_lengths r b) ->
  Forall (fun x => forall b, x = ParticleModel.Read b -> same_lengths r b) rest ->
  ParticleModel.load_all_arrays r first rest = ParticleModel.Read a -> same_lengths r a.
Proof.
  intros r rest. induction rest as [|x rest IH]; intros first a F Fr; cbn; [apply F|]. inversion Fr as [|y z Hx Hr]; subst. apply IH; [|exact Hr].
  intros b. destruct first as [c| |], x as [d| |]; cbn; try discriminate; try (intros E; injection E as <-; first [now apply F|now apply Hx]).
  intros E. injection E as <-. destruct (F c eq_refl) as (A1 & A2 & A3), (Hx d eq_refl) as (B1 & B2 & B3). unfold same_lengths, ParticleModel.append_arrays. cbn.
  rewrite !app_length. split; [lia|]. split; [lia|]. intros T. destruct (A3 T) as (A4 & A5), (B3 T) as (B4 & B5). unfold ParticleModel.needs_temp. rewrite T. cbn [orb]. rewrite !app_length. lia.
Qed.

Lemma package_sound : forall r a contig nbins mesh n values visit near bins, same_lengths r a ->
  0 < nbins -> Z.of_nat (length (ParticleModel.a_pos a)) <= 715827882 ->
  interp_indices (package_call r a contig nbins mesh n values visit near bins) (length (ParticleModel.a_pos a)) n ->
  interp_sound (package_call r a contig nbins mesh n values visit near bins) (length (ParticleModel.a_pos a)) n.
Proof.
  intros r a contig nbins mesh n values visit near bins (L1 & L2 & L3) B M X. unfold interp_sound.
  assert (V : ParticleModel.r_tau r = true -> Z.of_nat (length (ParticleModel.a_vel a)) = Z.of_nat (length (ParticleModel.a_pos a)) /\
    Z.of_nat (length (ParticleModel.a_temp a)) = Z.of_nat (length (ParticleModel.a_pos a))) by (intros T; destruct (L3 T) as (-> & ->); auto).
  split; [reflexivity|]. split; [cbn; now rewrite L1|]. split; [cbn; now rewrite L2|]. split.
  { cbn. intros T. rewrite T. cbn. destruct (V T) as (-> & ->). auto. }
  split; [reflexivity|]. split; [reflexivity|]. split; [|split; [exact B|]; split; [exact M|exact X]].
  unfold interp_types, line_types. cbn. destruct (ParticleModel.r_tau r); repeat split.
Qed.

Lemma package_aux : forall r reads first rest a contig nbins mesh n values visit near bins,
  (forall x, In x reads -> exists tb s ind, x = ParticleModel.read_indexed tb r s ind) ->
  reads = first :: rest -> ParticleModel.load_all_arrays r first rest = ParticleModel.Read a ->
  0 < nbins -> Z.of_nat (length (ParticleModel.a_pos a)) <= 715827882 ->
  interp_indices (package_call r a contig nbins mesh n values visit near bins) (length (ParticleModel.a_pos a)) n ->
  snd (interpolate (package_call r a contig nbins mesh n values visit near bins)) = Returned /\
  Forall (in_bounds (interp_args (package_call r a contig nbins mesh n values visit near bins)) (Z.of_nat n * nbins * 8))
    (fst (interpolate (package_call r a contig nbins mesh n values visit near bins))).
Proof.
  intros r reads first rest a contig nbins mesh n values visit near bins H -> L B M X.
  assert (K : forall x, In x (first :: rest) -> forall b, x = ParticleModel.Read b -> same_lengths r b).
  { intros x I b ->. destruct (H _ I) as (tb & s & ind & E). apply (read_lengths tb r s ind). congruence. }
  assert (same_lengths r a).
  { apply (load_lengths r rest first a); [apply K; now left| |exact L]. apply Forall_forall. intros x I. apply K. now right. }
  change (Z.of_nat n * nbins * 8) with (Z.of_nat n * q_nbins (package_call r a contig nbins mesh n values visit near bins) * 8).
  apply (interp_safe_aux _ (length (ParticleModel.a_pos a)) n). now apply package_sound.
Qed.

(** ** The pixels that are written *)

Lemma int_read_write : forall o i p w j, int_read o i <> Write p w j.
Proof. intros. unfold int_read. destruct (_ <=? _); discriminate. Qed.

Lemma written_aux : forall q n i, snd (interpolate q) = Returned -> first_dim (q_cofm q) (Z.of_nat n) ->
  (In (Write Output 8 i) (fst (interpolate q)) <->
   exists l p j, (l < n)%nat /\ In p (q_near q l) /\ In j (q_bins q l p) /\ i = (Z.of_nat l * q_nbins q) mod 4294967296 + j).
Proof.
  intros q n i Rt (rn & Fn). destruct (interp_outcome_aux q) as ((O & _) & _). apply O in Rt as (T & (n' & m & r & Sc & Sa & Sp & Sd & Sh) & B).
  rewrite Sc in Fn. injection Fn as -> <-.
  destruct (interp_accepted q (Z.of_nat n) m r T B Sc Sa Sp Sd Sh) as (pos & vel & dens & temp & h & axis & cofm & e1 & e2 & e3 & e4 & e5 & e6 & e7 & C1 & C2 & C3 & C4 & C5 & C6 & C7 & E).
  rewrite E. cbn [fst]. rewrite Nat2Z.id. apply contiguous_got in C1, C2, C3, C4, C5, C6, C7.
  assert (NG : forall e o, got e o -> e <> Write Output 8 i) by (intros e o [-> | ->]; discriminate).
  unfold interp_trace. cbv zeta. split.
  - intros H.
    assert (K : In (Write Output 8 i) (flat_map (line_accesses q pos vel dens temp h axis cofm) (seq 0 n))).
    { repeat (apply in_app_or in H as [H|H]); auto; exfalso.
      - cbn in H. repeat (destruct H as [H|H]; [eapply NG; [|exact H]; eassumption|]). exact H.
      - apply in_flat_map in H as (l & _ & [H|[H|[]]]); discriminate.
      - destruct (q_tau q); [|exact H]. cbn in H. repeat (destruct H as [H|H]; [eapply NG; [|exact H]; eassumption|]). exact H.
      - destruct H as [H|[]]; discriminate.
      - apply in_flat_map in H as (l & _ & [H|H]); [discriminate|]. unfold search_reads in H. repeat (apply in_app_or in H as [H|H]).
        + destruct (some_other _); [destruct H as [H|[]]; discriminate|exact H].
        + destruct (some_x _); [destruct H as [H|[]]; discriminate|exact H].
        + apply in_flat_map in H as (k & _ & [H|[H|[H|[]]]]); discriminate.
      - cbn in H. destruct H as [H|[H|[]]]; discriminate.
      - destruct (q_tau q); cbn in H; [destruct H as [H|[H|[]]]; discriminate|exact H].
      - cbn in H. destruct H as [H|[H|[H|[H|[H|[]]]]]]; discriminate. }
    apply in_flat_map in K as (l & L & K). apply in_seq in L. unfold line_accesses in K. apply in_app_or in K as [K|K].
    + exfalso. destruct (q_mesh q); [|exact K]. destruct K as [K|K]; [discriminate|]. unfold cell_reads in K. apply in_app_or in K as [K|K].
      * destruct K as [K|[K|[]]]; discriminate.
      * apply in_flat_map in K as (p & _ & [K|[K|[K|[]]]]); now apply int_read_write in K.
    + destruct K as [K|K]; [discriminate|]. apply in_flat_map in K as (p & P & K). exists l, p.
      apply in_app_or in K as [K|K].
      { exfalso. destruct K as [K|K]; [now apply int_read_write in K|]. destruct (q_tau q); [destruct K as [K|[]]; now apply int_read_write in K|exact K]. }
      apply in_app_or in K as [K|K].
      { exfalso. destruct K as [K|K]; [discriminate|]. apply in_app_or in K as [K|K];
          [destruct (q_tau q); [destruct K as [K|[]]; discriminate|exact K]|destruct (q_mesh q); [exact K|destruct K as [K|[]]; discriminate]]. }
      apply in_map_iff in K as (j & Ej & J). exists j. injection Ej as Ej. repeat split; [lia|exact P|exact J|]. rewrite <- Ej. reflexivity.
  - intros (l & p & j & L & P & J & ->). do 3 (apply in_or_app; right). apply in_or_app. left. apply in_flat_map. exists l. split; [apply in_seq; lia|].
    unfold line_accesses. apply in_or_app. right. right. apply in_flat_map. exists p. split; [exact P|]. do 2 (apply in_or_app; right). apply in_map_iff. exists j. split; [reflexivity|exact J].
Qed.

Lemma sound_returned : forall q m n, interp_sound q m n -> snd (interpolate q) = Returned /\ first_dim (q_cofm q) (Z.of_nat n).
Proof. intros q m n W. split; [apply (interp_safe_aux q m n W)|]. destruct W as (_ & _ & _ & _ & _ & S & _). exists [3]. exact S. Qed.

Lemma rows_small_aux : forall q m n i, interp_sound q m n -> (Z.of_nat n - 1) * q_nbins q < 4294967296 ->
  (In (Write Output 8 i) (fst (interpolate q)) <->
   exists l p j, (l < n)%nat /\ In p (q_near q l) /\ In j (q_bins q l p) /\ i = Z.of_nat l * q_nbins q + j).
Proof.
  intros q m n i W L. destruct (sound_returned q m n W) as (Rt & F). rewrite (written_aux q n i Rt F).
  assert (B : 0 < q_nbins q) by (destruct W as (_ & _ & _ & _ & _ & _ & _ & B & _); exact B).
  split; intros (l & p & j & Hl & P & J & ->); exists l, p, j; repeat split; auto; rewrite Z.mod_small; auto; nia.
Qed.

Lemma rows_wrap_aux : forall n nb l, (l < n)%nat -> 0 < nb -> 4294967296 <= Z.of_nat l * nb ->
  exists q, interp_sound q 1 n /\ q_nbins q = nb /\ (forall k, q_near q k = if (k =? l)%nat then [0%nat] else []) /\ (forall k p, q_bins q k p = [0]) /\
    ~ In (Write Output 8 (Z.of_nat l * nb)) (fst (interpolate q)).
Proof.
  intros n nb l L B G.
  set (q := mkInterp false nb false (mkArray Float32 [1; 3] true) (mkArray Float32 [1] true) (mkArray Float32 [1] true) (mkArray Float32 [1] true)
    (mkArray Float32 [1] true) (mkArray Int32 [Z.of_nat n] true) (mkArray Float64 [Z.of_nat n; 3] true) (fun _ => 1) (fun _ => [])
    (fun k => if (k =? l)%nat then [0%nat] else []) (fun _ _ => [0])).
  assert (W : interp_sound q 1 n).
  { unfold interp_sound, interp_types, line_types, interp_indices, q.
    cbn [q_pos q_dens q_h q_vel q_temp q_axis q_cofm q_tau q_nbins a_shape a_type q_visit q_near q_bins q_values].
    repeat split; try lia; try discriminate; intros; try contradiction; auto.
    - destruct (l0 =? l)%nat; [destruct H as [<- |[]]; lia|contradiction].
    - destruct H as [<- |[]]; lia.
    - destruct H as [<- |[]]; lia. }
  exists q. split; [exact W|]. repeat (split; [reflexivity|]). destruct (sound_returned q 1 n W) as (Rt & F). rewrite (written_aux q n _ Rt F).
  intros (k & p & j & K & P & J & E). cbn [q q_near q_bins q_nbins] in *. destruct (k =? l)%nat eqn:Ek; [|contradiction]. apply Nat.eqb_eq in Ek. subst k.
  destruct J as [<- |[]]. pose proof (Z.mod_pos_bound (Z.of_nat l * nb) 4294967296 ltac:(lia)). lia.
Qed.

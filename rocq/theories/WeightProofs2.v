(** The density weighted density, the velocity, and where the average fails. *)
From Coq Require Import ZArith List Reals Bool Lra Lia Permutation.
From Verif Require Import Containers IndexModel IndexSpec IndexProofs AbsorptionModel AbsorptionSpec AbsorptionProofs
  VoronoiModel PipelineModel PipelineSpec PipelineProofs WeightModel WeightSpec WeightProofs.
Import ListNotations.
Local Open Scope R_scope.

Lemma C68_temp_range_aux : forall phys pos su ls mine lo hi,
  (0 < su_nbins su)%nat -> su_kern su <> Voronoi -> 0 < su_unit su -> 0 < phys ->
  Forall (good_line (su_box su)) ls -> rank_ok pos su ls mine ->
  Forall (fun g => 0 <= g_dens g) (all_gas [mine]) -> Forall (fun g => lo <= g_temp g <= hi) (all_gas [mine]) ->
  exists out, get_temp HDF5 phys pos su ls mine [mine] = Done out /\
    forall i l j, nth_error ls i = Some l -> (j < su_nbins su)%nat ->
      lo <= nth (i * su_nbins su + j) out 0 <= hi \/
      (nth (i * su_nbins su + j) out 0 = 0 /\ pixel_sum Column su l j (all_gas [mine]) 0).
Proof.
  intros phys pos su ls mine lo hi Hn Hk Hu Hp Hls Hm D W.
  destruct (C68_temp_aux phys pos su ls mine [mine] [] Hn Hk Hu Hp Hls Hm) as (out & E & L & V).
  { constructor; [exact Hm|constructor]. }
  { rewrite app_nil_r. apply Permutation_refl. }
  { exact D. }
  exists out. split; [exact E|]. intros i l j Hl Hj.
  apply share_range with (w := g_temp); try assumption; [| |apply V; assumption].
  - rewrite Forall_forall in Hls. apply Hls. eapply nth_error_In; eauto.
  - apply (all_gas_good pos su ls). constructor; [exact Hm|constructor].
Qed.

Lemma same_kept : forall pos su ls gs, (pos = true -> Forall (fun g => 0 < g_dens g) gs) ->
  filter (kept_by pos su ls) gs = filter (kept_by false su ls) gs.
Proof.
  intros pos su ls gs H. apply filter_ext_in. intros g Hg. unfold kept_by.
  destruct (get_near_lines _ _ _) as [[|n m]|]; try reflexivity. destruct pos; [|reflexivity].
  specialize (H eq_refl). rewrite Forall_forall in H. specialize (H g Hg). destruct (Rlt_dec 0 (g_dens g)); [reflexivity|contradiction].
Qed.

Lemma combine_same : forall A B (f : A -> A -> B) l, map (fun p => f (fst p) (snd p)) (combine l l) = map (fun x => f x x) l.
Proof. intros A B f. induction l as [|x l IH]; [reflexivity|]. cbn [combine map fst snd]. rewrite IH. reflexivity. Qed.

Lemma species_gives : forall sp rs phys pos su ls s, (0 < su_nbins su)%nat -> su_kern su <> Voronoi ->
  Forall (good_line (su_box su)) ls -> segment_ok pos su ls s -> (pos = true -> Forall (fun g => 0 < g_dens g) (fst s)) ->
  gives su ls (species_segment sp rs phys pos su ls s) (fun l j => sum_of su l j (fun g => sp g / rs) (fst s) / phys).
Proof.
  intros sp rs phys pos su ls s Hn Hk Hls Hs Hd. unfold species_segment.
  assert (Hs' := Hs). destruct Hs' as (Hgs & F & Hpos & Hs1 & Hs2 & Hs3).
  assert (Sz : (Z.of_nat (length (fst s)) <= 2 ^ 31)%Z) by (destruct F; lia).
  rewrite read_particles_filter by assumption. rewrite <- (same_kept pos) by exact Hd.
  eapply gives_ext; [|apply (segment_gives pos su ls s _ (fun g => g_dens g * (sp g / rs) / phys))]; try assumption.
  - intros l j _. cbv beta. apply sum_scaled.
  - intros g ->. unfold Rdiv. ring.
  - intros _. unfold times_species. rewrite Nat.eqb_refl. f_equal.
    rewrite (combine_same _ _ (fun a b => with_dens a (g_dens a / phys * (sp b / rs)))).
    apply map_ext. intros g. unfold redo. f_equal. unfold Rdiv. ring.
Qed.

Lemma Forall_segments : forall (Q : gas -> Prop) r, Forall Q (all_gas [r]) -> Forall (fun s : segment => Forall Q (fst s)) (fst r :: snd r).
Proof.
  intros Q r H. unfold all_gas in H. cbn [map concat] in H. rewrite app_nil_r in H. apply Forall_app in H. destruct H as [A B].
  constructor; [exact A|]. clear A. destruct r as [f rest]. cbn [snd] in *.
  induction rest as [|s rest IH]; [constructor|]. cbn [map concat] in B.
  apply Forall_app in B. destruct B as [B1 B2]. constructor; [exact B1|apply IH; exact B2].
Qed.

Lemma C68_species_aux : forall sp rs phys pos su ls mine ranks others,
  (0 < su_nbins su)%nat -> su_kern su <> Voronoi -> 0 < su_unit su -> 0 < phys ->
  Forall (good_line (su_box su)) ls -> rank_ok pos su ls mine -> Forall (rank_ok pos su ls) ranks ->
  Permutation (all_gas ranks) (all_gas [mine] ++ others) -> Forall (fun g => 0 <= g_dens g) (all_gas ranks) ->
  (pos = true -> Forall (fun g => 0 < g_dens g) (all_gas [mine])) ->
  exists out, get_dens_weighted_density HDF5 sp rs phys pos su ls mine ranks = Done out /\
    length out = (length ls * su_nbins su)%nat /\
    forall i l j, nth_error ls i = Some l -> (j < su_nbins su)%nat ->
      share su l j (fun g => sp g / rs) (all_gas [mine]) (all_gas ranks) (nth (i * su_nbins su + j) out 0).
Proof.
  intros sp rs phys pos su ls mine ranks others Hn Hk Hu Hp Hls Hm Hr P D Dm.
  assert (Dm' : pos = true -> Forall (fun s : segment => Forall (fun g => 0 < g_dens g) (fst s)) (fst mine :: snd mine)).
  { intros e. apply Forall_segments. apply Dm. exact e. }
  assert (E : all_gas [mine] = gas_of mine) by (unfold all_gas, gas_of; cbn [map concat]; apply app_nil_r).
  rewrite E in *. unfold get_dens_weighted_density. apply mass_weight_share with (others := others); try assumption.
  assert (G := rank_segments pos su ls mine (segment_ok pos su ls) Hm (fun s H => H)).
  rewrite Forall_forall in G |- *. intros s Hs. apply species_gives; try assumption.
  - apply G. exact Hs.
  - intros e. specialize (Dm' e). rewrite Forall_forall in Dm'. apply Dm'. exact Hs.
Qed.

(** A particle whose sphere meets a line is read. *)
Lemma touches_kept : forall su ls g, good_gas su g -> Forall (good_line (su_box su)) ls -> touches su ls g ->
  kept_by false su ls g = true.
Proof.
  intros su ls g Hg Hls (l & d & Hl & Hd & Lt).
  destruct (C03_content_aux (su_box su) ls (map g_part [g]) [0%nat]) as (s & E & Hs & Hin & Hcomp).
  { apply Permutation_refl. }
  { cbn. lia. }
  { constructor; [|constructor]. exact Hg. }
  { exact Hls. }
  assert (I : In 0%Z s) by (apply (Hcomp 0%nat (g_part g) eq_refl); exists l, d; auto).
  assert (F := read_particles_filter false su ls [g] [0%nat] ltac:(cbn; lia) (Permutation_refl _)).
  unfold read_particles in F. rewrite E in F. cbn [filter] in F.
  destruct (kept_by false su ls g); [reflexivity|]. exfalso.
  destruct s as [|k s]; [destruct I|]. cbn [map all_some] in F.
  destruct (at_part [g] k); [|discriminate F]. destruct (all_some _); discriminate F.
Qed.

Lemma filter_shorter : forall A (p q : A -> bool) l x, (forall y, p y = true -> q y = true) -> In x l -> p x = false -> q x = true ->
  (length (filter p l) < length (filter q l))%nat.
Proof.
  intros A p q l x H I P Q.
  assert (G : forall l, (length (filter p l) <= length (filter q l))%nat).
  { induction l0 as [|y l0 IH]; [cbn; lia|]. cbn [filter]. destruct (p y) eqn:E; [rewrite (H y E); cbn [length]; lia|].
    destruct (q y); cbn [length]; lia. }
  induction l as [|y l IH]; [destruct I|]. destruct I as [->|I].
  - cbn [filter]. rewrite P, Q. cbn [length]. specialize (G l). lia.
  - specialize (IH I). cbn [filter]. destruct (p y) eqn:E; [rewrite (H y E); cbn [length]; lia|].
    destruct (q y); cbn [length]; lia.
Qed.

Lemma C68_species_refuted_aux : forall sp rs phys su ls mine ranks g1 g2,
  Forall (good_line (su_box su)) ls -> segment_ok true su ls (fst mine) ->
  In g1 (fst (fst mine)) -> touches su ls g1 -> 0 < g_dens g1 ->
  In g2 (fst (fst mine)) -> touches su ls g2 -> g_dens g2 = 0 ->
  get_dens_weighted_density HDF5 sp rs phys true su ls mine ranks = Lengths.
Proof.
  intros sp rs phys su ls mine ranks g1 g2 Hls Hs I1 T1 D1 I2 T2 D2.
  destruct Hs as (Hgs & F & Hpos & Hs1 & Hs2 & Hs3). set (gs := fst (fst mine)) in *.
  assert (Sz : (Z.of_nat (length gs) <= 2 ^ 31)%Z) by (destruct F; lia).
  assert (K : forall g, In g gs -> touches su ls g -> kept_by false su ls g = true).
  { intros g I T. apply touches_kept; try assumption. rewrite Forall_forall in Hgs. apply Hgs. exact I. }
  assert (K1 : kept_by true su ls g1 = true).
  { specialize (K g1 I1 T1). unfold kept_by in *. destruct (get_near_lines _ _ _) as [[|n m]|]; try discriminate.
    destruct (Rlt_dec 0 (g_dens g1)); [reflexivity|contradiction]. }
  assert (K2 : kept_by true su ls g2 = false).
  { specialize (K g2 I2 T2). unfold kept_by in *. destruct (get_near_lines _ _ _) as [[|n m]|]; try discriminate.
    destruct (Rlt_dec 0 (g_dens g2)); [lra|reflexivity]. }
  assert (E : species_segment sp rs phys true su ls (fst mine) = Lengths).
  { unfold species_segment. fold gs. rewrite read_particles_filter by assumption.
    unfold weight_segment. fold gs. rewrite read_particles_filter by assumption.
    destruct (filter (kept_by true su ls) gs) as [|g kept] eqn:Ef.
    - exfalso. assert (X : In g1 []) by (rewrite <- Ef; apply filter_In; auto). exact X.
    - unfold times_species. rewrite <- Ef.
      assert (L := filter_shorter _ (kept_by true su ls) (kept_by false su ls) gs g2 (kept_weaken true su ls) I2 K2 (K g2 I2 T2)).
      destruct (Nat.eqb_spec (length (filter (kept_by true su ls) gs)) (length (filter (kept_by false su ls) gs))); [lia|reflexivity]. }
  unfold get_dens_weighted_density, mass_weight, numerator. rewrite E.
  assert (G : forall rest, fold_left (fun acc s => match acc with
      | Done a => match species_segment sp rs phys true su ls s with Done b => Done (add_arrays a b) | e => e end
      | e => e end) rest (@Lengths (list R)) = Lengths).
  { induction rest as [|s rest IH]; [reflexivity|exact IH]. }
  rewrite G. reflexivity.
Qed.

(** ** Velocity *)

Lemma C68_velocity_aux : forall atime phys pos su ls mine ranks others,
  (0 < su_nbins su)%nat -> su_kern su <> Voronoi -> 0 < su_unit su -> 0 < phys ->
  Forall (good_line (su_box su)) ls -> rank_ok pos su ls mine -> Forall (rank_ok pos su ls) ranks ->
  Permutation (all_gas ranks) (all_gas [mine] ++ others) -> Forall (fun g => 0 <= g_dens g) (all_gas ranks) ->
  su_nbins su <> 3%nat ->
  exists v, get_velocity HDF5 atime phys pos su ls mine ranks = Done v /\
    forall i l j, nth_error ls i = Some l -> (j < su_nbins su)%nat ->
      share su l j (fun g => fst (fst (g_vel g)) * sqrt atime) (all_gas [mine]) (all_gas ranks) (v i j 0%nat) /\
      share su l j (fun g => snd (fst (g_vel g)) * sqrt atime) (all_gas [mine]) (all_gas ranks) (v i j 1%nat) /\
      share su l j (fun g => snd (g_vel g) * sqrt atime) (all_gas [mine]) (all_gas ranks) (v i j 2%nat).
Proof.
  intros atime phys pos su ls mine ranks others Hn Hk Hu Hp Hls Hm Hr P D N3.
  assert (E : all_gas [mine] = gas_of mine) by (unfold all_gas, gas_of; cbn [map concat]; apply app_nil_r).
  rewrite E in *.
  assert (N : forall ax, gives su ls (numerator (weight_segment (times (vel_weight atime ax) phys) pos su ls) (fst mine) (snd mine))
            (fun l j => sum_of su l j (vel_weight atime ax) (gas_of mine) / phys)).
  { intros ax. eapply gives_ext; [|apply (numerator_gives su ls _ (fun g l j => px Column su l j (redo (fun g => g_dens g * vel_weight atime ax g / phys) g)))].
    - intros l j _. cbv beta. rewrite sum_scaled. reflexivity.
    - eapply rank_segments; [exact Hm|]. intros s Hs. eapply gives_ext; [|apply times_gives; assumption].
      intros l j _. cbv beta. rewrite sum_scaled. reflexivity. }
  destruct (N 0%nat) as (n0 & E0 & L0 & V0). destruct (N 1%nat) as (n1 & E1 & L1 & V1). destruct (N 2%nat) as (n2 & E2 & L2 & V2).
  destruct (density_gives phys pos su ls ranks Hn Hk Hls Hr) as (den & Ed & Ld & Vd).
  unfold get_velocity. cbv zeta. rewrite E0, E1, E2, Ed. eexists. split; [reflexivity|]. intros i l j Hl Hj.
  assert (Hi : (i < length ls)%nat) by (apply nth_error_Some; congruence).
  assert (DA : forall ax, den_at (length ls) (su_nbins su) den i j ax = nth (i * su_nbins su + j) den 0).
  { intros ax. unfold den_at. destruct (broadcasts (length ls) (su_nbins su)) eqn:B; [|reflexivity].
    unfold broadcasts in B. apply andb_prop in B. destruct B as [B1 B2].
    destruct (Nat.eqb_spec (su_nbins su) 3); [contradiction|]. rewrite orb_false_r in B1. apply Nat.eqb_eq in B1.
    rewrite B1 in *. cbn [Nat.eqb]. apply orb_prop in B2.
    assert (length ls = 1%nat) by (destruct B2 as [B2|B2]; apply Nat.eqb_eq in B2; exact B2).
    rewrite H in *. cbn [Nat.eqb]. f_equal. lia. }
  cbv beta iota. rewrite !DA. rewrite (V0 i l j Hl Hj), (V1 i l j Hl Hj), (V2 i l j Hl Hj), (Vd i l j Hl Hj).
  assert (SH : forall w, share su l j w (gas_of mine) (all_gas ranks)
             (sum_of su l j w (gas_of mine) / phys / divisor (rsum (map (px Column su l j) (all_gas ranks)) / phys))).
  { intros w. apply share_pixel with (others := others); try assumption.
    - rewrite Forall_forall in Hls. apply Hls. eapply nth_error_In; eauto.
    - eapply gas_of_good; eassumption.
    - eapply all_gas_good. eapply Forall_impl; [|exact Hr]. intros r K. exact K. }
  assert (W : forall ax w, (forall g, vel_weight atime ax g = w g) -> sum_of su l j (vel_weight atime ax) (gas_of mine) = sum_of su l j w (gas_of mine)).
  { intros ax w H. unfold sum_of. f_equal. apply map_ext. intros g. rewrite H. reflexivity. }
  rewrite (W 0%nat (fun g => fst (fst (g_vel g)) * sqrt atime)), (W 1%nat (fun g => snd (fst (g_vel g)) * sqrt atime)),
    (W 2%nat (fun g => snd (g_vel g) * sqrt atime)); try (intros g; unfold vel_weight, component; destruct (g_vel g) as [[x y] z]; reflexivity).
  split; [|split]; apply SH.
Qed.

(** Proofs about the halos of a set of sightlines (C74). *)
From Coq Require Import ZArith List Bool Reals Lia Lra Sorting.Sorted.
From Flocq Require Import Core.Raux.
From Verif Require Import RegionModel HaloModel HaloSpec HaloProofs HaloProofs2 HaloProofs3.
From Verif Require SightlineModel SightlineProofs.
Import ListNotations.
Local Open Scope R_scope.

Lemma contains_lt : forall radii cofm p i, contains radii cofm p i -> (i < length cofm)%nat.
Proof. intros radii cofm p i [c [r [H _]]]. apply nth_error_Some. congruence. Qed.

Lemma regions_of_state : forall s, good_state s ->
  exists zpos, get_contiguous_regions (st_box s) 1e19 1e-2 (st_nbins s) (st_den s) = Some zpos /\
    length zpos = length (st_den s).
Proof.
  intros s [B [N [D [L [A [W C]]]]]].
  destruct (C73_regions_aux (st_box s) 1e19 1e-2 (st_nbins s) (st_den s) B N ltac:(lra) ltac:(lra) D W) as [z [E [F _]]].
  exists z. auto.
Qed.

Lemma combine_nth_error : forall A B (a : list A) (b : list B) k x y, nth_error a k = Some x -> nth_error b k = Some y ->
  nth_error (combine a b) k = Some (x, y).
Proof.
  intros A B a; induction a as [|x a IH]; intros [|y b] [|k] x' y' Q3 Q4; try discriminate.
  - cbn in *. congruence.
  - cbn [combine nth_error] in *. apply IH; auto.
Qed.

Lemma C74_nearest_aux : forall set_list u s, (forall l, enumerates l (set_list l)) -> good_units u -> good_state s ->
  st_cache s = None ->
  exists zpos out s', get_contiguous_regions (st_box s) 1e19 1e-2 (st_nbins s) (st_den s) = Some zpos /\
    find_nearest_halo set_list u s = Some (out, s') /\ length out = length (st_lines s) /\
    find_nearest_halo set_list u s' = Some (out, s') /\
    forall k c ax zs o, nth_error (st_lines s) k = Some (c, ax) -> nth_error zpos k = Some zs -> nth_error out k = Some o ->
      let cand := candidate (sub_radii (st_cat s)) (sub_cofm (st_cat s)) (sub_sub_radii (st_cat s))
                    (sub_sub_cofm (st_cat s)) (sub_sub_index (st_cat s)) (map (on_line c ax) zs) in
      (o = (-1)%Z /\ forall h, ~ cand h) \/
      exists h m r d, o = Z.of_nat h /\ cand h /\ nth_error (sub_mass (st_cat s)) h = Some m /\
        nth_error (sub_radii (st_cat s)) h = Some r /\ depth m r d /\
        forall h' m' r' d', cand h' -> nth_error (sub_mass (st_cat s)) h' = Some m' ->
          nth_error (sub_radii (st_cat s)) h' = Some r' -> depth m' r' d' -> d' <= d.
Proof.
  intros set_list u s SL GU GS NC. destruct (regions_of_state s GS) as [zpos [EZ LZ]].
  destruct GS as [B [N [D [L [A [W C]]]]]]. pose proof C as [G1 [G2 [G3 [G4 [G5 [G6 [G7 G8]]]]]]].
  destruct (C74_assign_aux (sub_radii (st_cat s)) (sub_cofm (st_cat s)) zpos (st_lines s) G2 ltac:(lia)
    ltac:(intros c ax H; apply (A c ax H))) as [hs [H1 [H2 H3]]].
  destruct (C74_assign_aux (sub_sub_radii (st_cat s)) (sub_sub_cofm (st_cat s)) zpos (st_lines s) G3 ltac:(lia)
    ltac:(intros c ax H; apply (A c ax H))) as [ss [S1 [S2 S3]]].
  set (hl := map (fun l => set_list (map fst l)) hs). set (sl := map (fun l => set_list (map fst l)) ss).
  set (s' := mkState (st_lines s) (st_den s) (st_box s) (st_nbins s) (st_cat s) (Some (hl, sl))).
  assert (EN : find_nearby_halos set_list s = Some ((hl, sl), s')).
  { unfold find_nearby_halos. rewrite NC, EZ, H1, S1. reflexivity. }
  assert (HI : forall k c ax zs l h, nth_error (st_lines s) k = Some (c, ax) -> nth_error zpos k = Some zs ->
     nth_error hl k = Some l ->
     (In h l <-> exists p, In p (map (on_line c ax) zs) /\ host (sub_radii (st_cat s)) (sub_cofm (st_cat s)) p h)).
  { intros k c ax zs l h K1 K2 K3. unfold hl in K3. rewrite nth_error_map in K3.
    destruct (nth_error hs k) as [x|] eqn:X; [|discriminate]. injection K3 as <-.
    rewrite (proj2 (SL (map fst x)) h). apply hosts_in_iff. eapply H3; eauto. }
  assert (SI : forall k c ax zs l h, nth_error (st_lines s) k = Some (c, ax) -> nth_error zpos k = Some zs ->
     nth_error sl k = Some l ->
     (In h l <-> exists p, In p (map (on_line c ax) zs) /\ host (sub_sub_radii (st_cat s)) (sub_sub_cofm (st_cat s)) p h)).
  { intros k c ax zs l h K1 K2 K3. unfold sl in K3. rewrite nth_error_map in K3.
    destruct (nth_error ss k) as [x|] eqn:X; [|discriminate]. injection K3 as <-.
    rewrite (proj2 (SL (map fst x)) h). apply hosts_in_iff. eapply S3; eauto. }
  assert (LH : length hl = length (st_lines s)) by (unfold hl; rewrite map_length; lia).
  assert (LS : length sl = length (st_lines s)) by (unfold sl; rewrite map_length; lia).
  assert (CK : forall k c ax zs l l', nth_error (st_lines s) k = Some (c, ax) -> nth_error zpos k = Some zs ->
    nth_error hl k = Some l -> nth_error sl k = Some l' ->
    (forall h, In h l -> (h < length (sub_cofm (st_cat s)))%nat) /\
    (forall h, In h l' -> (h < length (sub_sub_cofm (st_cat s)))%nat)).
  { intros k c ax zs l l' K1 K2 K3 K4. split; intros h I.
    - apply (HI k c ax zs l h K1 K2 K3) in I as [p [_ [I _]]]. eapply contains_lt; eauto.
    - apply (SI k c ax zs l' h K1 K2 K4) in I as [p [_ [I _]]]. eapply contains_lt; eauto. }
  assert (NTH : forall k, (k < length (st_lines s))%nat -> exists c ax zs l l', nth_error (st_lines s) k = Some (c, ax) /\
    nth_error zpos k = Some zs /\ nth_error hl k = Some l /\ nth_error sl k = Some l' /\
    nth_error (combine hl sl) k = Some (l, l')).
  { intros k K.
    destruct (nth_error (st_lines s) k) as [[c ax]|] eqn:Q1; [|apply nth_error_None in Q1; lia].
    destruct (nth_error zpos k) as [zs|] eqn:Q2; [|apply nth_error_None in Q2; lia].
    destruct (nth_error hl k) as [l|] eqn:Q3; [|apply nth_error_None in Q3; lia].
    destruct (nth_error sl k) as [l'|] eqn:Q4; [|apply nth_error_None in Q4; lia].
    exists c, ax, zs, l, l'. repeat split; auto.
    apply combine_nth_error; auto. }
  destruct (all_some_spec _ (map (fun p => nearest_one set_list u (st_cat s) (fst p) (snd p)) (combine hl sl)))
    as [out [O1 O2]].
  { intros x X. apply in_map_iff in X as [[l l'] [<- X]]. apply In_nth_error in X as [k K].
    assert (KL : (k < length (st_lines s))%nat).
    { rewrite <- LH. apply (f_equal (fun o => match o with Some _ => true | None => false end)) in K.
      destruct (nth_error (combine hl sl) k) eqn:Q; [|discriminate].
      assert (k < length (combine hl sl))%nat by (apply nth_error_Some; congruence). rewrite combine_length in H. lia. }
    destruct (NTH k KL) as [c [ax [zs [l1 [l2 [K1 [K2 [K3 [K4 K5]]]]]]]]]. rewrite K5 in K. injection K as -> ->.
    destruct (CK k c ax zs l l' K1 K2 K3 K4) as [C1 C2]. cbn [fst snd].
    destruct (nearest_one_spec set_list u (st_cat s) l l' SL GU C C1 C2) as [o [E _]]. rewrite E. discriminate. }
  exists zpos, out, s'. split; [exact EZ|].
  assert (LO : length out = length (st_lines s)).
  { rewrite <- (map_length (@Some Z) out), O2, map_length, combine_length. lia. }
  split; [unfold find_nearest_halo; rewrite EN, O1; reflexivity|]. split; [exact LO|]. split.
  { unfold find_nearest_halo, find_nearby_halos. cbn [st_cache s' st_cat]. unfold s' at 1. cbn [st_cache]. rewrite O1. reflexivity. }
  intros k c ax zs o K1 K2 K3 cand.
  assert (KL : (k < length (st_lines s))%nat) by (apply nth_error_Some; congruence).
  destruct (NTH k KL) as [c' [ax' [zs' [l [l' [M1 [M2 [M3 [M4 M5]]]]]]]]].
  rewrite K1 in M1. injection M1 as <- <-. rewrite K2 in M2. injection M2 as <-.
  destruct (CK k c ax zs l l' K1 K2 M3 M4) as [C1 C2].
  destruct (nearest_one_spec set_list u (st_cat s) l l' SL GU C C1 C2) as [o' [E R]].
  assert (o' = o).
  { apply (map_nth_error (@Some Z)) in K3. rewrite O2 in K3.
    apply (map_nth_error (fun p => nearest_one set_list u (st_cat s) (fst p) (snd p))) in M5. cbn [fst snd] in M5. congruence. }
  subst o'.
  assert (EQ : forall h, (In h l \/ exists q, In q l' /\ nth_error (sub_sub_index (st_cat s)) q = Some h) <-> cand h).
  { intros h. unfold cand, candidate. rewrite (HI k c ax zs l h K1 K2 M3). split.
    - intros [X|[q [X Y]]]; [left; exact X|right]. apply (SI k c ax zs l' q K1 K2 M4) in X as [p [X1 X2]]. exists p, q. auto.
    - intros [X|[p [q [X [Y Z]]]]]; [left; exact X|right]. exists q. split; [|exact Z].
      apply (SI k c ax zs l' q K1 K2 M4). exists p. auto. }
  cbv zeta in R. destruct R as [[R1 R2]|[h [m [r [d [R1 [R2 [R3 [R4 [R5 R6]]]]]]]]]].
  - left. split; [exact R1|]. intros h X. apply (R2 h). apply EQ. exact X.
  - right. exists h, m, r, d. repeat split; auto; [apply EQ; exact R2|].
    intros h' m' r' d' X. apply R6. apply EQ. exact X.
Qed.

(** ** A sightline through one halo *)

Definition one_halo : catalogue := mkCat [1] [1] [(0, 0, 0)] [] [] [] [] true.
Definition one_line (y : R) : state := mkState [((0, y, 0), 1%Z)] [[10 ^ 20]%Z] 1 1 one_halo None.

Lemma one_regions : get_contiguous_regions 1 1e19 1e-2 1 [[10 ^ 20]%Z] = Some [[0]].
Proof.
  unfold get_contiguous_regions. change (SightlineModel.get_rolled_spectra [[10 ^ 20]%Z]) with (Some [(0%Z, [10 ^ 20]%Z)]).
  cbn [regions_loop]. unfold spectrum_regions. change (SightlineModel.list_max [10 ^ 20]%Z) with (Some (10 ^ 20)%Z).
  assert (M : map (above_cut 1e19 1e-2 (10 ^ 20)) [10 ^ 20]%Z = [true]).
  { cbn [map]. unfold above_cut. change (10 ^ 20)%Z with 100000000000000000000%Z.
    destruct (Rlt_dec 1e19 100000000000000000000) as [_|Q]; [|exfalso; apply Q; lra].
    destruct (Rlt_dec 1e19 100000000000000000000) as [_|Q]; [|exfalso; apply Q; lra]. reflexivity. }
  cbv beta iota. rewrite M. change (combine_regions [true] 0) with (Some [(0, 1)]%nat). cbn [map]. do 3 f_equal.
  unfold region_pos. change (SightlineModel.py_slice (fst (0, 1)%nat) (snd (0, 1)%nat) (seq 0 1)) with [0%nat].
  change (SightlineModel.py_slice (fst (0, 1)%nat) (snd (0, 1)%nat) [10 ^ 20]%Z) with [10 ^ 20]%Z.
  unfold weighted. cbn [map combine total fold_right fst snd].
  change (Z.of_nat 0 - 0)%Z with 0%Z. rewrite Rmult_0_r, Rplus_0_l.
  unfold float_mod, Rdiv. rewrite !Rmult_0_l. replace (Zfloor 0) with 0%Z by (symmetry; apply (Zfloor_IZR 0)).
  rewrite Rmult_0_r, Rminus_0_r, Rmult_0_l. reflexivity.
Qed.

Lemma one_line_good : forall y, good_state (one_line y).
Proof.
  intros y. unfold good_state, one_line; cbn [st_box st_nbins st_den st_lines st_cat].
  split; [lra|]. split; [lia|]. split; [congruence|]. split; [reflexivity|]. split; [|split].
  - intros c ax [Q|[]]. injection Q as <- <-. lia.
  - intros row [<-|[]]. split; [reflexivity|]. intros x [<-|[]]. lia.
  - unfold good_cat, one_halo; cbn [sub_mass sub_radii sub_cofm sub_sub_mass sub_sub_radii sub_sub_cofm sub_sub_index index_is_int].
    do 4 (split; [reflexivity|]). split; [intros i []|]. split; [reflexivity|]. split; intros x [<-|[]]; lra.
Qed.

Lemma one_nearby : forall set_list y, (forall l, enumerates l (set_list l)) -> exists s',
  find_nearby_halos set_list (one_line y) = Some (([if Rlt_dec (y ^ 2) 1 then [0%nat] else []], [[]]), s') /\
  st_cache s' = Some ([if Rlt_dec (y ^ 2) 1 then [0%nat] else []], [[]]) /\ st_cat s' = one_halo.
Proof.
  intros set_list y SL.
  exists (mkState (st_lines (one_line y)) (st_den (one_line y)) 1 1 one_halo
    (Some ([if Rlt_dec (y ^ 2) 1 then [0%nat] else []], [[]]))).
  unfold find_nearby_halos, one_line; cbn [st_cache st_box st_nbins st_den st_lines st_cat].
  rewrite one_regions.
  assert (E0 : set_list [] = []). { destruct (SL []) as [_ H]. destruct (set_list []) as [|x l]; auto. exfalso. apply (H x). left; auto. }
  assert (E1 : set_list [0%nat] = [0%nat]).
  { destruct (SL [0%nat]) as [H1 H2]. destruct (set_list [0%nat]) as [|x [|x' l]].
    - exfalso. apply (H2 0%nat). left; auto.
    - assert (In x [0%nat]) as [<-|[]] by (apply H2; left; auto). reflexivity.
    - assert (In x [0%nat]) as [<-|[]] by (apply H2; left; auto).
      assert (In x' [0%nat]) as [<-|[]] by (apply H2; right; left; auto). inversion H1. exfalso. apply H3. left; auto. }
  cbn [assign_to_halo assign_loop one_halo sub_radii sub_cofm sub_sub_radii sub_sub_cofm].
  change (put 1 (0, y, 0) 0) with (Some (0, y, 0)). cbv beta iota. cbn [first_halo].
  change (dist2 (0, 0, 0) (0, y, 0)) with ((0 - 0) ^ 2 + (0 - y) ^ 2 + (0 - 0) ^ 2).
  replace ((0 - 0) ^ 2 + (0 - y) ^ 2 + (0 - 0) ^ 2) with (y ^ 2) by ring. replace (1 ^ 2) with 1 by ring.
  destruct (Rlt_dec (y ^ 2) 1) as [Q|Q]; cbn [map fst]; rewrite ?E0, ?E1; split; try reflexivity; split; reflexivity.
Qed.

(** The stored assignment outlives the sightlines it belongs to. *)
Lemma C74_stale_aux : forall set_list, (forall l, enumerates l (set_list l)) ->
  exists s s1 lines near far, good_state s /\
  find_nearby_halos set_list s = Some (near, s1) /\
  let s2 := mkState lines (st_den s1) (st_box s1) (st_nbins s1) (st_cat s1) (st_cache s1) in
  let fresh := mkState lines (st_den s) (st_box s) (st_nbins s) (st_cat s) None in
  good_state fresh /\
  (exists s3, find_nearby_halos set_list s2 = Some (near, s3)) /\
  (exists s3, find_nearby_halos set_list fresh = Some (far, s3)) /\ near <> far.
Proof.
  intros set_list SL. destruct (one_nearby set_list 0 SL) as [s1 [E1 [E2 E3]]].
  destruct (one_nearby set_list 5 SL) as [s3 [F1 [F2 F3]]].
  destruct (Rlt_dec (0 ^ 2) 1) as [_|Q]; [|exfalso; apply Q; lra].
  destruct (Rlt_dec (5 ^ 2) 1) as [Q|_]; [exfalso; lra|].
  exists (one_line 0), s1, [((0, 5, 0), 1%Z)], ([[0%nat]], [[]]), ([[]], [[]]).
  split; [apply one_line_good|]. split; [exact E1|]. cbv zeta. split; [apply (one_line_good 5)|]. split.
  - eexists. unfold find_nearby_halos. cbn [st_cache]. rewrite E2. reflexivity.
  - split; [exists s3; exact F1|discriminate].
Qed.

Definition plain_units : units := mkUnits 1e10 1 1 1 0.
Lemma plain_good : good_units plain_units.
Proof. unfold good_units, plain_units; cbn [u_mass u_length u_grav u_hubble u_red]. pose proof e10_pos. lra. Qed.

(** The halo of index zero is found, counted by the histogram, and left out of the plots. *)
Lemma C74_zero_aux : forall set_list, (forall l, enumerates l (set_list l)) -> exists u s s',
  good_units u /\ good_state s /\ find_nearest_halo set_list u s = Some ([0%Z], s') /\
  hist_keeps 0 = true /\ plot_keeps 0 = false.
Proof.
  intros set_list SL.
  destruct (C74_nearest_aux set_list plain_units (one_line 0) SL plain_good (one_line_good 0) eq_refl)
    as [zpos [out [s' [Z [E [L [_ H]]]]]]].
  exists plain_units, (one_line 0), s'. split; [apply plain_good|]. split; [apply one_line_good|].
  split; [|split; reflexivity].
  change (get_contiguous_regions (st_box (one_line 0)) 1e19 1e-2 (st_nbins (one_line 0)) (st_den (one_line 0)))
    with (get_contiguous_regions 1 1e19 1e-2 1 [[10 ^ 20]%Z]) in Z. rewrite one_regions in Z. injection Z as <-.
  cbn [one_line st_lines length] in L. destruct out as [|o [|o' out]]; [discriminate| |discriminate].
  specialize (H 0%nat (0, 0, 0) 1%Z [0] o eq_refl eq_refl eq_refl). cbn [one_line st_cat one_halo sub_radii sub_cofm] in H.
  destruct H as [[_ H]|[h [m [r [d [-> [_ [H _]]]]]]]].
  - exfalso. apply (H 0%nat). left. exists (0, 0, 0). split; [left; reflexivity|]. split; [|intros j J; lia].
    exists (0, 0, 0), 1. split; [reflexivity|]. split; [reflexivity|]. unfold sqdist; cbn [fst snd]. lra.
  - destruct h as [|h]; [exact E|]. destruct h; discriminate.
Qed.

(** No distance is taken across the boundary. *)
Lemma C74_periodic_aux : exists box radii cofm c z, 0 < box /\
  (forall h, In h cofm -> (0 <= fst (fst h) < box /\ 0 <= snd (fst h) < box /\ 0 <= snd h < box)) /\
  0 <= z < box /\ 0 <= snd (fst c) < box /\ 0 <= snd c < box /\
  contains radii cofm (fst (fst (on_line c 1 z)) - box, snd (fst (on_line c 1 z)), snd (on_line c 1 z)) 0 /\
  assign_to_halo [(c, 1%Z)] radii cofm [[z]] = Some [[]].
Proof.
  exists 10, [2], [(1/2, 5, 5)], (0, 5, 5), (19/2).
  split; [lra|]. split; [intros h [<-|[]]; cbn [fst snd]; lra|]. split; [lra|]. cbn [fst snd]. split; [lra|]. split; [lra|]. split.
  - exists (1/2, 5, 5), 2. split; [reflexivity|]. split; [reflexivity|]. unfold sqdist, on_line; cbn [Z.eqb Pos.eqb fst snd]. lra.
  - cbn [assign_to_halo assign_loop]. change (put 1 (0, 5, 5) (19/2)) with (Some (19/2, 5, 5)). cbv beta iota. cbn [first_halo].
    change (dist2 (1/2, 5, 5) (19/2, 5, 5)) with ((1/2 - 19/2) ^ 2 + (5 - 5) ^ 2 + (5 - 5) ^ 2).
    destruct (Rlt_dec ((1/2 - 19/2) ^ 2 + (5 - 5) ^ 2 + (5 - 5) ^ 2) (2 ^ 2)) as [Q|_]; [exfalso; lra|]. reflexivity.
Qed.

(** Once the parents are floats, a sightline through a subhalo fails. *)
Lemma C74_floats_aux : forall set_list u c halos subhalos, (forall l, enumerates l (set_list l)) ->
  index_is_int c = false -> subhalos <> [] -> nearest_one set_list u c halos subhalos = None.
Proof.
  intros set_list u c halos subhalos SL I N. unfold nearest_one.
  destruct (all_some (map (take (sub_sub_index c)) subhalos)) as [parents|] eqn:E; auto.
  destruct subhalos as [|s0 ss]; [congruence|]. rewrite I. cbn [negb andb].
  destruct (set_list (parents ++ halos)) as [|b bs] eqn:Q; auto. exfalso.
  cbn [map all_some] in E. destruct (take (sub_sub_index c) s0) as [p|]; [|discriminate].
  destruct (all_some (map (take (sub_sub_index c)) ss)) as [ps|]; [|discriminate]. injection E as <-.
  destruct (SL ((p :: ps) ++ halos)) as [_ H]. rewrite Q in H. apply (H p). left; auto.
Qed.

(** Interpolated gas properties: the calls as a whole. *)
From Coq Require Import Reals List Bool Lia Lra.
From Verif Require Import RatesModel RatesSpec RatesProofs NeutralModel GridModel GridSpec GridProofs.
Import ListNotations.
Local Open Scope R_scope.

Definition densest (sf : bool) (maxdens : R) : R := if sf then maxdens else exp 5.

Lemma ln_lt_iff : forall d x, 0 < d -> ln d < x <-> d < exp x.
Proof.
  intros d x D. split; intros H.
  - rewrite <- (exp_ln d D). apply exp_increasing. exact H.
  - rewrite <- (ln_exp x). apply ln_increasing; assumption.
Qed.
Lemma ln_ge_iff : forall d x, 0 < d -> x <= ln d <-> exp x <= d.
Proof.
  intros d x D. split; intros H; apply Rnot_lt_le; intros C; [apply (ln_lt_iff d x D) in C|apply (ln_lt_iff d x D) in C]; lra.
Qed.

Lemma make_fields : forall n mi sf bg z maxdens tf gf mean g, make n mi sf bg z maxdens tf gf mean = Some g ->
  0 < maxdens -> thinnest z < densest sf maxdens ->
  exists dlo dhi, exp dlo = thinnest z /\ exp dhi = densest sf maxdens /\ built g dlo dhi /\
    rates g = n /\ maxit g = mi /\ sfn g = sf /\ background g = bg /\ temp_factor g = tf /\ gamma_factor g = gf /\
    mean_density g = mean /\
    columns (fun d u => get_neutral_fraction n mi d u 0.24) (densgrid g) (ienergygrid g) = Some (lh0grid g) /\
    columns (fun d u => network_temp n mi d u 0.24) (densgrid g) (ienergygrid g) = Some (tempgrid g).
Proof.
  intros n mi sf bg z maxdens tf gf mean g M MD L. unfold make in M. cbv zeta in M.
  set (dlo := if Rle_dec 1 z then -16 else -20) in *. set (dhi := if sf then ln maxdens else 5) in *.
  set (dsz := if sf then 500%nat else 1000%nat) in *.
  assert (Ns : (2 <= dsz)%nat) by (unfold dsz; destruct sf; apply Nat.leb_le; reflexivity). clearbody dsz.
  destruct (columns (fun d u => get_neutral_fraction n mi d u 0.24) (linspace dlo dhi dsz) (linspace 2 21 500)) as [h|] eqn:H1;
    [|discriminate].
  destruct (columns (fun d u => network_temp n mi d u 0.24) (linspace dlo dhi dsz) (linspace 2 21 500)) as [t|] eqn:H2;
    [|discriminate].
  injection M as <-.
  assert (E1 : exp dlo = thinnest z) by (unfold dlo, thinnest; destruct (Rle_dec 1 z); reflexivity).
  assert (E2 : exp dhi = densest sf maxdens) by (unfold dhi, densest; destruct sf; [apply exp_ln; exact MD|reflexivity]).
  exists dlo, dhi. split; [exact E1|]. split; [exact E2|]. cbn [rates maxit sfn background temp_factor gamma_factor mean_density
    densgrid ienergygrid lh0grid tempgrid]. repeat (split; [reflexivity || assumption ||
    (exists dsz; split; [exact Ns|]; split; [apply exp_lt_inv; rewrite E1, E2; exact L|split; reflexivity])|]). exact H2.
Qed.

Section Interpolator.
Variable eval : list R -> list R -> list (list R) -> R -> R -> R.

Notation positive ps := (Forall (fun p : R * R => 0 < fst p /\ 0 < snd p) ps).

Lemma positive_scaled : forall tf ps, 0 < tf -> positive ps -> Forall (fun p : R * R => 0 < snd p * tf) ps.
Proof. intros tf ps T F. eapply Forall_impl; [|exact F]. intros p [_ U]. cbv beta. nra. Qed.

Lemma existsb_thin : forall dhi ps, positive ps ->
  (exists p, In p ps /\ fst p < exp dhi) <-> filter (fun p : R * R => GridModel.ltb (ln (fst p)) dhi) ps <> [].
Proof.
  intros dhi ps F. split.
  - intros (p & I & L) E. assert (In p (filter (fun p : R * R => GridModel.ltb (ln (fst p)) dhi) ps)) as J.
    { apply filter_In. split; [exact I|]. apply ltb_spec. rewrite Forall_forall in F. apply ln_lt_iff; [apply (F p I)|exact L]. }
    rewrite E in J. contradiction.
  - intros H. destruct (filter _ ps) as [|p r] eqn:E; [congruence|]. exists p.
    assert (In p (p :: r)) as J by (left; reflexivity). rewrite <- E in J. apply filter_In in J as [I L]. split; [exact I|].
    apply ltb_spec in L. rewrite Forall_forall in F. apply ln_lt_iff; [apply (F p I)|exact L].
Qed.

Lemma forallb_thin : forall dlo dhi ps, dlo < dhi -> positive ps ->
  forallb (fun p => GridModel.leb dlo (ln (fst p))) (filter (fun p : R * R => GridModel.ltb (ln (fst p)) dhi) ps) = true <->
  (forall p, In p ps -> exp dlo <= fst p).
Proof.
  intros dlo dhi ps L F. rewrite Forall_forall in F. rewrite forallb_forall. split.
  - intros H p I. destruct (Rlt_le_dec (ln (fst p)) dhi) as [Q|Q].
    + apply ln_ge_iff; [apply (F p I)|]. apply leb_spec. apply H. apply filter_In. split; [exact I|]. apply ltb_spec; exact Q.
    + apply ln_ge_iff; [apply (F p I)|]. lra.
  - intros H p J. apply filter_In in J as [I _]. apply leb_spec. apply ln_ge_iff; [apply (F p I)|]. apply H; exact I.
Qed.

(** The three ways get_interp can end. *)
Lemma interp_cases : forall g dlo dhi (nhi : bool) ps, built g dlo dhi -> 0 < temp_factor g -> positive ps ->
  let table := if nhi then lh0grid g else tempgrid g in
  ((forall p, In p ps -> exp dhi <= fst p) -> get_interp eval g nhi ps = EmptyMax) /\
  ((exists p, In p ps /\ fst p < exp dlo) -> get_interp eval g nhi ps = OffGrid) /\
  ((exists p, In p ps /\ fst p < exp dhi) -> (forall p, In p ps -> exp dlo <= fst p) ->
   get_interp eval g nhi ps =
     Done (map (fun p => if GridModel.ltb (ln (fst p)) dhi then looked_up eval g table p else 1) ps,
           map (fun p => GridModel.leb dhi (ln (fst p))) ps, map (fun p => (fst p, rescale1 g p)) ps)).
Proof.
  intros g dlo dhi nhi ps B T F table. pose proof B as (nd & _ & L & _).
  rewrite (get_interp_spec eval g dlo dhi nhi ps B (positive_scaled _ _ T F)). fold table.
  split; [|split].
  - intros H. replace (filter (fun p : R * R => GridModel.ltb (ln (fst p)) dhi) ps) with (@nil (R * R)); [reflexivity|].
    symmetry. destruct (filter _ ps) as [|p r] eqn:E; [reflexivity|]. exfalso.
    assert (X : exists p, In p ps /\ fst p < exp dhi) by (apply existsb_thin; [exact F|rewrite E; discriminate]).
    destruct X as (q & I & Q). specialize (H q I). lra.
  - intros (p & I & Q).
    assert (X : filter (fun p : R * R => GridModel.ltb (ln (fst p)) dhi) ps <> []).
    { apply existsb_thin; [exact F|]. exists p. split; [exact I|]. apply (Rlt_trans _ _ _ Q). apply exp_increasing; exact L. }
    destruct (forallb (fun p => GridModel.leb dlo (ln (fst p))) (filter (fun p : R * R => GridModel.ltb (ln (fst p)) dhi) ps)) eqn:E.
    + exfalso. apply (forallb_thin dlo dhi ps L F) with (p := p) in E; [|exact I]. lra.
    + destruct (filter (fun p : R * R => GridModel.ltb (ln (fst p)) dhi) ps); [congruence|]. reflexivity.
  - intros X H. apply (existsb_thin dhi ps F) in X. apply (forallb_thin dlo dhi ps L F) in H. rewrite H.
    destruct (filter (fun p : R * R => GridModel.ltb (ln (fst p)) dhi) ps); [congruence|]. reflexivity.
Qed.

(** The dense particles. *)
Lemma take_dense : forall g dhi ps,
  take (map (fun p : R * R => GridModel.leb dhi (ln (fst p))) ps) (map (fun p => (fst p, rescale1 g p)) ps) =
  map (fun p => (fst p, rescale1 g p)) (filter (fun p => GridModel.leb dhi (ln (fst p))) ps).
Proof.
  intros g dhi ps. rewrite <- (filter_map _ _ (fun p => (fst p, rescale1 g p)) (fun q => GridModel.leb dhi (ln (fst q)))).
  rewrite <- take_filter. f_equal. rewrite map_map. reflexivity.
Qed.

Lemma map_Forall2 : forall (A B : Type) (P : A -> B -> Prop) (h : A -> B) l, (forall a, In a l -> P a (h a)) -> Forall2 P l (map h l).
Proof. intros A B P h l H. induction l as [|a l IH]; constructor; [apply H; left; reflexivity|]. apply IH. intros b I; apply H; right; exact I. Qed.

(** A full array: the thin entries looked up, the dense ones given by k. *)
Definition filled (g : gasnet) (dhi : R) (z : list (list R)) (k : R * R -> R) (ps : list (R * R)) : list R :=
  map (fun p => if GridModel.leb dhi (ln (fst p)) then k p else looked_up eval g z p) ps.

Lemma filled_values : forall g dhi z k ps, positive ps ->
  Forall2 (fun p f => forall e, read_at (log_u g p) e ->
    (fst p < exp dhi -> f = exp (eval (densgrid g) (ienergygrid g) z (ln (fst p)) e)) /\ (exp dhi <= fst p -> f = k p))
    ps (filled g dhi z k ps).
Proof.
  intros g dhi z k ps F. apply map_Forall2. intros p I e E. rewrite Forall_forall in F. destruct (F p I) as [D _].
  split; intros H.
  - apply (ln_lt_iff _ _ D) in H. replace (GridModel.leb dhi (ln (fst p))) with false by (symmetry; apply leb_no; exact H).
    unfold looked_up. rewrite (read_fun _ _ _ (clamp_read _) E). reflexivity.
  - apply (ln_ge_iff _ _ D) in H. replace (GridModel.leb dhi (ln (fst p))) with true by (symmetry; apply leb_spec; exact H). reflexivity.
Qed.

Lemma ltb_negb : forall x y, GridModel.ltb x y = negb (GridModel.leb y x).
Proof. intros. unfold GridModel.ltb, GridModel.leb. destruct (Rlt_dec x y), (Rle_dec y x); auto; lra. Qed.

Lemma place_dense : forall g dhi z (k : R * R -> R) ps,
  place (map (fun p => GridModel.leb dhi (ln (fst p))) ps)
        (map (fun p => if GridModel.ltb (ln (fst p)) dhi then looked_up eval g z p else 1) ps)
        (map k (filter (fun p => GridModel.leb dhi (ln (fst p))) ps)) = filled g dhi z k ps.
Proof.
  intros. rewrite (place_filter (R * R) (fun p => GridModel.leb dhi (ln (fst p)))). unfold filled. apply map_ext. intros p.
  rewrite ltb_negb. destruct (GridModel.leb dhi (ln (fst p))); reflexivity.
Qed.

Lemma no_dense : forall g dhi z (k : R * R -> R) ps, filter (fun p : R * R => GridModel.leb dhi (ln (fst p))) ps = [] ->
  map (fun p => if GridModel.ltb (ln (fst p)) dhi then looked_up eval g z p else 1) ps = filled g dhi z k ps.
Proof.
  intros g dhi z k ps H. unfold filled. apply map_ext_in. intros p I. rewrite ltb_negb.
  destruct (GridModel.leb dhi (ln (fst p))) eqn:E; [|reflexivity]. exfalso.
  assert (In p (filter (fun p : R * R => GridModel.leb dhi (ln (fst p))) ps)) as J by (apply filter_In; auto).
  rewrite H in J. contradiction.
Qed.

Definition cold_cloud (bg : option uvb) (d : R) : R := match bg with Some b => neutral_fraction b d 1e4 | None => 1 end.

Lemma reproc_done : forall g dlo dhi ps, built g dlo dhi -> 0 < temp_factor g -> positive ps -> sfn g = true ->
  (exists p, In p ps /\ fst p < exp dhi) -> (forall p, In p ps -> exp dlo <= fst p) ->
  reproc_HI eval g ps = Done (filled g dhi (lh0grid g) (fun p => cold_cloud (background g) (fst p)) ps).
Proof.
  intros g dlo dhi ps B T F Sf X H. unfold reproc_HI.
  destruct (interp_cases g dlo dhi true ps B T F) as (_ & _ & C). rewrite (C X H), take_dense, Sf.
  destruct (filter (fun p : R * R => GridModel.leb dhi (ln (fst p))) ps) as [|q r] eqn:E.
  - cbn [map]. f_equal. apply no_dense. exact E.
  - rewrite <- (place_dense g dhi (lh0grid g) (fun p => cold_cloud (background g) (fst p)) ps), E.
    destruct (background g); rewrite map_map; reflexivity.
Qed.

Lemma temp_done : forall g dlo dhi ps, built g dlo dhi -> 0 < temp_factor g -> positive ps -> sfn g = true ->
  (exists p, In p ps /\ fst p < exp dhi) -> (forall p, In p ps -> exp dlo <= fst p) ->
  temp eval g ps = Done (filled g dhi (tempgrid g) (fun _ => 1e4) ps).
Proof.
  intros g dlo dhi ps B T F Sf X H. unfold temp.
  destruct (interp_cases g dlo dhi false ps B T F) as (_ & _ & C). rewrite (C X H), take_dense, Sf.
  destruct (filter (fun p : R * R => GridModel.leb dhi (ln (fst p))) ps) as [|q r] eqn:E.
  - cbn [map]. f_equal. apply no_dense. exact E.
  - rewrite <- (place_dense g dhi (tempgrid g) (fun _ => 1e4) ps), E, map_map. reflexivity.
Qed.

Lemma C66_fraction_aux : forall n mi bg z maxdens tf gf mean g ps,
  make n mi true bg z maxdens tf gf mean = Some g -> thinnest z < maxdens -> 0 < tf -> positive ps ->
  ((forall p, In p ps -> maxdens <= fst p) -> reproc_HI eval g ps = EmptyMax) /\
  ((exists p, In p ps /\ fst p < thinnest z) -> reproc_HI eval g ps = OffGrid) /\
  ((exists p, In p ps /\ fst p < maxdens) -> (forall p, In p ps -> thinnest z <= fst p) ->
   exists out, reproc_HI eval g ps = Done out /\
     Forall2 (fun p f => forall e, read_at (ln (energy tf gf mean (fst p) (snd p))) e ->
       (fst p < maxdens -> f = exp (eval (densgrid g) (ienergygrid g) (lh0grid g) (ln (fst p)) e)) /\
       (maxdens <= fst p -> f = match bg with Some b => neutral_fraction b (fst p) 1e4 | None => 1 end)) ps out).
Proof.
  intros n mi bg z maxdens tf gf mean g ps M L T F.
  assert (MD : 0 < maxdens) by (unfold thinnest in L; destruct (Rle_dec 1 z); pose proof (exp_pos (-16)); pose proof (exp_pos (-20)); lra).
  destruct (make_fields n mi true bg z maxdens tf gf mean g M MD L)
    as (dlo & dhi & E1 & E2 & B & _ & _ & Sf & Bg & Tf & Gf & Me & _). cbn [densest] in E2. rewrite <- Tf in T.
  destruct (interp_cases g dlo dhi true ps B T F) as (C1 & C2 & _). rewrite E1, E2 in *. split; [|split].
  - intros H. unfold reproc_HI. rewrite (C1 H). reflexivity.
  - intros H. unfold reproc_HI. rewrite (C2 H). reflexivity.
  - intros X H. pose proof (reproc_done g dlo dhi ps B T F Sf) as Q. rewrite E1, E2 in Q. rewrite (Q X H). eexists. split; [reflexivity|].
    pose proof (filled_values g dhi (lh0grid g) (fun p => cold_cloud (background g) (fst p)) ps F) as V. rewrite E2 in V.
    unfold log_u in V. rewrite Tf, Gf, Me, Bg in V. rewrite Bg. exact V.
Qed.

Lemma C66_temp_aux : forall n mi bg z maxdens tf gf mean g ps,
  make n mi true bg z maxdens tf gf mean = Some g -> thinnest z < maxdens -> 0 < tf -> positive ps ->
  ((forall p, In p ps -> maxdens <= fst p) -> temp eval g ps = EmptyMax) /\
  ((exists p, In p ps /\ fst p < thinnest z) -> temp eval g ps = OffGrid) /\
  ((exists p, In p ps /\ fst p < maxdens) -> (forall p, In p ps -> thinnest z <= fst p) ->
   exists out, temp eval g ps = Done out /\
     Forall2 (fun p f => forall e, read_at (ln (energy tf gf mean (fst p) (snd p))) e ->
       (fst p < maxdens -> f = exp (eval (densgrid g) (ienergygrid g) (tempgrid g) (ln (fst p)) e)) /\
       (maxdens <= fst p -> f = 1e4)) ps out).
Proof.
  intros n mi bg z maxdens tf gf mean g ps M L T F.
  assert (MD : 0 < maxdens) by (unfold thinnest in L; destruct (Rle_dec 1 z); pose proof (exp_pos (-16)); pose proof (exp_pos (-20)); lra).
  destruct (make_fields n mi true bg z maxdens tf gf mean g M MD L)
    as (dlo & dhi & E1 & E2 & B & _ & _ & Sf & Bg & Tf & Gf & Me & _). cbn [densest] in E2. rewrite <- Tf in T.
  destruct (interp_cases g dlo dhi false ps B T F) as (C1 & C2 & _). rewrite E1, E2 in *. split; [|split].
  - intros H. unfold temp. rewrite (C1 H). reflexivity.
  - intros H. unfold temp. rewrite (C2 H). reflexivity.
  - intros X H. pose proof (temp_done g dlo dhi ps B T F Sf) as Q. rewrite E1, E2 in Q. rewrite (Q X H). eexists. split; [reflexivity|].
    pose proof (filled_values g dhi (tempgrid g) (fun _ => 1e4) ps F) as V. rewrite E2 in V.
    unfold log_u in V. rewrite Tf, Gf, Me in V. exact V.
Qed.

End Interpolator.

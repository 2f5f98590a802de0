(** Interpolated gas properties: splitting, nodes, dense gas solved directly, and the counterexamples. *)
From Coq Require Import Reals List Bool FinFun Lia Lra.
From Verif Require Import RatesModel RatesSpec RatesProofs NeutralModel GridModel GridSpec GridProofs GridProofs2.
Import ListNotations.
Local Open Scope R_scope.

Section Interpolator.
Variable eval : list R -> list R -> list (list R) -> R -> R -> R.

Notation positive ps := (Forall (fun p : R * R => 0 < fst p /\ 0 < snd p) ps).

(** When a call succeeds. *)
Lemma done_cases : forall g dlo dhi (nhi : bool) ps r, built g dlo dhi -> 0 < temp_factor g -> positive ps ->
  get_interp eval g nhi ps = Done r ->
  (exists p, In p ps /\ fst p < exp dhi) /\ (forall p, In p ps -> exp dlo <= fst p).
Proof.
  intros g dlo dhi nhi ps r B T F E. destruct (interp_cases eval g dlo dhi nhi ps B T F) as (C1 & C2 & _). split.
  - pose proof (existsb_thin dhi ps F) as X.
    destruct (filter (fun p : R * R => GridModel.ltb (ln (fst p)) dhi) ps) as [|q l] eqn:Q; [|apply X; discriminate].
    exfalso. rewrite C1 in E; [discriminate|]. intros p I. destruct (Rlt_le_dec (fst p) (exp dhi)) as [H|H]; [|exact H].
    exfalso. apply X; [|reflexivity]. exists p. auto.
  - intros p I. destruct (Rlt_le_dec (fst p) (exp dlo)) as [H|H]; [|exact H]. rewrite C2 in E; [discriminate|]. exists p. auto.
Qed.

Lemma reproc_inv : forall g ps out, reproc_HI eval g ps = Done out -> exists r, get_interp eval g true ps = Done r.
Proof. intros g ps out H. unfold reproc_HI in H. destruct (get_interp eval g true ps); try discriminate. eauto. Qed.
Lemma temp_inv : forall g ps out, temp eval g ps = Done out -> exists r, get_interp eval g false ps = Done r.
Proof. intros g ps out H. unfold temp in H. destruct (get_interp eval g false ps); try discriminate. eauto. Qed.

Lemma thinnest_pos : forall z m, thinnest z < m -> 0 < m.
Proof. intros z m L. unfold thinnest in L. destruct (Rle_dec 1 z); pose proof (exp_pos (-16)); pose proof (exp_pos (-20)); lra. Qed.

Lemma C66_split_aux : forall n mi bg z maxdens tf gf mean g ps qs,
  make n mi true bg z maxdens tf gf mean = Some g -> thinnest z < maxdens -> 0 < tf -> positive ps -> positive qs ->
  (forall a b, reproc_HI eval g ps = Done a -> reproc_HI eval g qs = Done b -> reproc_HI eval g (ps ++ qs) = Done (a ++ b)) /\
  (forall a b, temp eval g ps = Done a -> temp eval g qs = Done b -> temp eval g (ps ++ qs) = Done (a ++ b)).
Proof.
  intros n mi bg z maxdens tf gf mean g ps qs M L T F G.
  destruct (make_fields n mi true bg z maxdens tf gf mean g M (thinnest_pos _ _ L) L)
    as (dlo & dhi & _ & _ & B & _ & _ & Sf & _ & Tf & _). rewrite <- Tf in T.
  assert (FG : positive (ps ++ qs)) by (apply Forall_app; auto).
  assert (Ap : forall (X : (exists p, In p ps /\ fst p < exp dhi) /\ (forall p, In p ps -> exp dlo <= fst p))
    (Y : (exists p, In p qs /\ fst p < exp dhi) /\ (forall p, In p qs -> exp dlo <= fst p)),
    (exists p, In p (ps ++ qs) /\ fst p < exp dhi) /\ (forall p, In p (ps ++ qs) -> exp dlo <= fst p)).
  { intros [(p & I & H) X2] [_ Y2]. split; [exists p; split; [apply in_or_app; left; exact I|exact H]|].
    intros q Iq. apply in_app_or in Iq as [Iq|Iq]; auto. }
  split; intros a b Ha Hb.
  - destruct (reproc_inv _ _ _ Ha) as (ra & Ra). destruct (reproc_inv _ _ _ Hb) as (rb & Rb).
    pose proof (done_cases g dlo dhi true ps ra B T F Ra) as Ca. pose proof (done_cases g dlo dhi true qs rb B T G Rb) as Cb.
    rewrite (reproc_done eval g dlo dhi ps B T F Sf (proj1 Ca) (proj2 Ca)) in Ha.
    rewrite (reproc_done eval g dlo dhi qs B T G Sf (proj1 Cb) (proj2 Cb)) in Hb.
    destruct (Ap Ca Cb) as [Ab1 Ab2]. rewrite (reproc_done eval g dlo dhi (ps ++ qs) B T FG Sf Ab1 Ab2).
    injection Ha as <-. injection Hb as <-. unfold filled. rewrite map_app. reflexivity.
  - destruct (temp_inv _ _ _ Ha) as (ra & Ra). destruct (temp_inv _ _ _ Hb) as (rb & Rb).
    pose proof (done_cases g dlo dhi false ps ra B T F Ra) as Ca. pose proof (done_cases g dlo dhi false qs rb B T G Rb) as Cb.
    rewrite (temp_done eval g dlo dhi ps B T F Sf (proj1 Ca) (proj2 Ca)) in Ha.
    rewrite (temp_done eval g dlo dhi qs B T G Sf (proj1 Cb) (proj2 Cb)) in Hb.
    destruct (Ap Ca Cb) as [Ab1 Ab2]. rewrite (temp_done eval g dlo dhi (ps ++ qs) B T FG Sf Ab1 Ab2).
    injection Ha as <-. injection Hb as <-. unfold filled. rewrite map_app. reflexivity.
Qed.

(** ** Tables *)
Lemma columns_nth : forall solve dg eg cs i d, columns solve dg eg = Some cs -> nth_error dg i = Some d ->
  exists f, nth_error cs i = Some (map ln f) /\ solve (map (fun _ => exp d) eg) (map exp eg) = Value f.
Proof.
  intros solve dg. induction dg as [|a dg IH]; intros eg cs i d C N; [destruct i; discriminate|].
  cbn [columns] in C. destruct (solve (map (fun _ => exp a) eg) (map exp eg)) as [f| | |] eqn:E; try discriminate.
  destruct (columns solve dg eg) as [cs'|] eqn:E2; [|discriminate]. injection C as <-. destruct i as [|i].
  - injection N as ->. exists f. split; [reflexivity|exact E].
  - cbn [nth_error] in *. destruct (IH eg cs' i d E2 N) as (f' & A1 & A2). exists f'. auto.
Qed.

Lemma temps_nth : forall helium nh u ne ts i h e m, temps helium nh u ne = Some ts ->
  nth_error nh i = Some h -> nth_error u i = Some e -> nth_error ne i = Some m ->
  exists t, nth_error ts i = Some t /\ get_temp (m / h) e helium = Some t.
Proof.
  induction nh as [|h0 nh IH]; intros u ne ts i h e m H A1 A2 A3; [destruct i; discriminate|].
  destruct u as [|e0 u]; [destruct i; discriminate|]. destruct ne as [|m0 ne]; [destruct i; discriminate|].
  cbn [temps] in H. destruct (get_temp (m0 / h0) e0 helium) as [y|] eqn:Y; [|discriminate].
  destruct (temps helium nh u ne) as [ys|] eqn:Z; [|discriminate]. injection H as <-. destruct i as [|i]; cbn [nth_error] in *.
  - injection A1 as <-. injection A2 as <-. injection A3 as <-. exists y. auto.
  - exact (IH u ne ys i h e m Z A1 A2 A3).
Qed.

Lemma nth_some_len : forall (A : Type) (l : list A) i, (i < length l)%nat -> exists a, nth_error l i = Some a.
Proof. intros A l i H. destruct (nth_error l i) eqn:E; [eauto|]. apply nth_error_None in E. lia. Qed.

Lemma Forall2_nth : forall (A B : Type) (P : A -> B -> Prop) l m i a, Forall2 P l m -> nth_error l i = Some a ->
  exists b, nth_error m i = Some b /\ P a b.
Proof.
  intros A B P l m i a F. revert i. induction F; intros i N; [destruct i; discriminate|]. destruct i as [|i]; cbn [nth_error] in *.
  - injection N as <-. eauto.
  - apply IHF. exact N.
Qed.

Lemma Forall2_within : forall (A B : Type) (P : A -> B -> Prop) l m, Forall2 P l m -> Forall2 (fun a b => In a l /\ P a b) l m.
Proof.
  intros A B P l m F. induction F; constructor; [split; [left; reflexivity|assumption]|].
  eapply Forall2_imp; [|exact IHF]. intros a b [I Q]. split; [right; exact I|exact Q].
Qed.

Lemma neutral_solution : forall n mi density u fs i d e, shipped (recomb n) -> 0 <= photo_factor n ->
  length density = length u -> Forall (fun d => 0 < d) density -> Forall (fun e => 0 < e) u ->
  get_neutral_fraction n mi density u 0.24 = Value fs -> nth_error density i = Some d -> nth_error u i = Some e ->
  length fs = length density /\
  exists f x t, nth_error fs i = Some f /\ solution n d e x t /\ f = nH0 n (d * (1 - 0.24)) t x /\ 0 < f <= 1.
Proof.
  intros n mi density u fs i d e Sh P Len Fd Fu E Nd Nu.
  assert (He : 0 <= 0.24 < 1) by lra.
  destruct (C40_neutral_aux n mi density u 0.24 fs Sh P He Len Fd Fu E) as (ne & En & Lf & H).
  destruct (C40_solution_aux n mi density u 0.24 Sh P He Len Fd Fu) as [_ Sol]. destruct (Sol ne En) as [Ln Sol2].
  assert (Id : (i < length density)%nat) by (apply nth_error_Some; congruence).
  destruct (nth_some_len _ ne i ltac:(lia)) as (m & Nm). destruct (nth_some_len _ fs i ltac:(lia)) as (f & Nf).
  destruct (H i d e m f Nd Nu Nm Nf) as (t & Gt & Ef & Rf). destruct (Sol2 i d e m Nd Nu Nm) as (Rm & t' & Gt' & T & Cv).
  rewrite Gt in Gt'. injection Gt' as <-. rewrite Forall_forall in Fd.
  pose proof (Fd d (nth_error_In _ _ Nd)) as D.
  assert (Pn : 0 < d * (1 - 0.24)) by lra.
  split; [exact Lf|]. exists f, (m / (d * (1 - 0.24))), t. split; [exact Nf|]. split; [|split; [exact Ef|exact Rf]].
  split; [|split; [exact Gt|split; [exact T|exact Cv]]]. cbv zeta in Rm. split.
  - apply Rmult_le_pos; [lra|]. apply Rlt_le, Rinv_0_lt_compat; exact Pn.
  - apply (Rmult_le_reg_r (d * (1 - 0.24))); [exact Pn|]. unfold Rdiv at 1. rewrite Rmult_assoc, Rinv_l by lra. lra.
Qed.

Lemma temp_solution : forall n mi density u ts i d e, shipped (recomb n) -> 0 <= photo_factor n ->
  length density = length u -> Forall (fun d => 0 < d) density -> Forall (fun e => 0 < e) u ->
  network_temp n mi density u 0.24 = Value ts -> nth_error density i = Some d -> nth_error u i = Some e ->
  exists x t, nth_error ts i = Some t /\ solution n d e x t.
Proof.
  intros n mi density u ts i d e Sh P Len Fd Fu E Nd Nu.
  assert (He : 0 <= 0.24 < 1) by lra. unfold network_temp in E.
  destruct (get_equilib_ne n mi density u 0.24) as [ne| | |] eqn:En; try discriminate.
  destruct (temps 0.24 (map (fun d => d * (1 - 0.24)) density) u ne) as [ts'|] eqn:Ts; [|discriminate]. injection E as ->.
  destruct (C40_solution_aux n mi density u 0.24 Sh P He Len Fd Fu) as [_ Sol]. destruct (Sol ne En) as [Ln Sol2].
  assert (Id : (i < length density)%nat) by (apply nth_error_Some; congruence).
  destruct (nth_some_len _ ne i ltac:(lia)) as (m & Nm).
  destruct (Sol2 i d e m Nd Nu Nm) as (Rm & t' & Gt' & T & Cv).
  destruct (temps_nth 0.24 _ u ne ts i (d * (1 - 0.24)) e m Ts) as (t & Nt & Gt); [rewrite nth_error_map, Nd; reflexivity|exact Nu|exact Nm|].
  rewrite Gt in Gt'. injection Gt' as <-. rewrite Forall_forall in Fd.
  pose proof (Fd d (nth_error_In _ _ Nd)) as D. assert (Pn : 0 < d * (1 - 0.24)) by lra.
  exists (m / (d * (1 - 0.24))), t. split; [exact Nt|].
  split; [|split; [exact Gt|split; [exact T|exact Cv]]]. cbv zeta in Rm. split.
  - apply Rmult_le_pos; [lra|]. apply Rlt_le, Rinv_0_lt_compat; exact Pn.
  - apply (Rmult_le_reg_r (d * (1 - 0.24))); [exact Pn|]. unfold Rdiv at 1. rewrite Rmult_assoc, Rinv_l by lra. lra.
Qed.

Lemma grid_inputs : forall d eg, length (map (fun _ : R => exp d) eg) = length (map exp eg) /\
  Forall (fun d => 0 < d) (map (fun _ : R => exp d) eg) /\ Forall (fun e => 0 < e) (map exp eg).
Proof.
  intros d eg. split; [rewrite !map_length; reflexivity|]. split; apply Forall_forall; intros x I; apply in_map_iff in I as (y & <- & _); apply exp_pos.
Qed.

Lemma linspace_NoDup : forall lo hi n, lo < hi -> (2 <= n)%nat -> NoDup (linspace lo hi n).
Proof.
  intros lo hi n L N. unfold linspace. assert (P : 0 < (hi - lo) / INR (n - 1)).
  { apply Rdiv_lt_0_compat; [lra|]. apply lt_0_INR. lia. }
  apply FinFun.Injective_map_NoDup; [|apply seq_NoDup]. intros i j E. apply INR_eq. apply (Rmult_eq_reg_r ((hi - lo) / INR (n - 1))); lra.
Qed.

Lemma C66_node_aux : interpolates eval -> forall n mi bg z maxdens tf gf mean g ps k p d e,
  shipped (recomb n) -> 0 <= photo_factor n ->
  make n mi true bg z maxdens tf gf mean = Some g -> thinnest z < maxdens -> 0 < tf -> positive ps ->
  nth_error ps k = Some p -> In d (densgrid g) -> In e (ienergygrid g) ->
  fst p = exp d -> energy tf gf mean (fst p) (snd p) = exp e -> fst p < maxdens -> 2 < e < 21 ->
  (forall out, reproc_HI eval g ps = Done out -> exists f x t, nth_error out k = Some f /\
     solution n (fst p) (exp e) x t /\ f = nH0 n (fst p * (1 - 0.24)) t x /\ 0 < f <= 1) /\
  (forall out, temp eval g ps = Done out -> exists x t, nth_error out k = Some t /\ solution n (fst p) (exp e) x t).
Proof.
  intros At n mi bg z maxdens tf gf mean g ps k p d e Sh P M L T F Np Id Ie Ed Ee Lp Er.
  destruct (make_fields n mi true bg z maxdens tf gf mean g M (thinnest_pos _ _ L) L)
    as (dlo & dhi & E1 & E2 & B & _ & _ & Sf & _ & Tf & Gf & Me & Ch & Ct). cbn [densest] in E2.
  rewrite <- Tf in T.
  apply In_nth_error in Id as (i & Ni). apply In_nth_error in Ie as (j & Nj).
  destruct (grid_inputs d (ienergygrid g)) as (G1 & G2 & G3).
  assert (Nd' : nth_error (map (fun _ : R => exp d) (ienergygrid g)) j = Some (exp d)) by (rewrite nth_error_map, Nj; reflexivity).
  assert (Ne' : nth_error (map exp (ienergygrid g)) j = Some (exp e)) by (rewrite nth_error_map, Nj; reflexivity).
  assert (Rd : read_at (log_u g p) e).
  { unfold log_u. rewrite Tf, Gf, Me, Ee, ln_exp. constructor. exact Er. }
  destruct B as (nd & Nn & Lt & Dg & Eg).
  assert (Nx : NoDup (densgrid g)) by (rewrite Dg; apply linspace_NoDup; assumption).
  assert (Ny : NoDup (ienergygrid g)) by (rewrite Eg; apply linspace_NoDup; [lra|apply Nat.leb_le; reflexivity]).
  assert (B : built g dlo dhi) by (exists nd; auto).
  assert (Ld : ln (fst p) = d) by (rewrite Ed; apply ln_exp).
  split; intros out H.
  - destruct (reproc_inv _ _ _ H) as (r & Hr). destruct (done_cases g dlo dhi true ps r B T F Hr) as [C1 C2].
    rewrite (reproc_done eval g dlo dhi ps B T F Sf C1 C2) in H. injection H as <-.
    destruct (Forall2_nth _ _ _ _ _ _ _ (filled_values eval g dhi (lh0grid g) (fun p => cold_cloud (background g) (fst p)) ps F) Np)
      as (f & Nf & Hf). destruct (Hf e Rd) as [Hf' _]. rewrite E2 in Hf'. specialize (Hf' Lp).
    destruct (columns_nth _ _ _ _ i d Ch Ni) as (fs & Nc & Es).
    destruct (neutral_solution n mi _ _ fs j (exp d) (exp e) Sh P G1 G2 G3 Es Nd' Ne') as (_ & v & x & t & Nv & So & Ev & Rv).
    rewrite Ld, (At _ _ _ i j d e (map ln fs) (ln v) Nx Ny Ni Nj Nc) in Hf' by (rewrite nth_error_map, Nv; reflexivity).
    rewrite exp_ln in Hf' by apply Rv. exists f, x, t. rewrite Ed, Hf'. rewrite Hf' in Nf. auto.
  - destruct (temp_inv _ _ _ H) as (r & Hr). destruct (done_cases g dlo dhi false ps r B T F Hr) as [C1 C2].
    rewrite (temp_done eval g dlo dhi ps B T F Sf C1 C2) in H. injection H as <-.
    destruct (Forall2_nth _ _ _ _ _ _ _ (filled_values eval g dhi (tempgrid g) (fun _ => 1e4) ps F) Np)
      as (f & Nf & Hf). destruct (Hf e Rd) as [Hf' _]. rewrite E2 in Hf'. specialize (Hf' Lp).
    destruct (columns_nth _ _ _ _ i d Ct Ni) as (fs & Nc & Es).
    destruct (temp_solution n mi _ _ fs j (exp d) (exp e) Sh P G1 G2 G3 Es Nd' Ne') as (x & v & Nv & So).
    rewrite Ld, (At _ _ _ i j d e (map ln fs) (ln v) Nx Ny Ni Nj Nc) in Hf' by (rewrite nth_error_map, Nv; reflexivity).
    rewrite exp_ln in Hf' by apply So. exists x, v. rewrite Ed. rewrite Hf' in Nf. auto.
Qed.

(** ** Dense gas solved directly *)
Lemma C66_direct_aux : forall n mi bg z tf gf mean maxdens g ps out, shipped (recomb n) -> 0 <= photo_factor n ->
  make n mi false bg z maxdens tf gf mean = Some g -> 0 < maxdens -> 0 < tf -> positive ps ->
  reproc_HI eval g ps = Done out ->
  Forall2 (fun p f =>
    (fst p < exp 5 -> forall e, read_at (ln (energy tf gf mean (fst p) (snd p))) e ->
       f = exp (eval (densgrid g) (ienergygrid g) (lh0grid g) (ln (fst p)) e)) /\
    (exp 5 <= fst p -> exists x t, solution n (fst p) (energy tf gf mean (fst p) (snd p)) x t /\
       f = nH0 n (fst p * (1 - 0.24)) t x /\ 0 < f <= 1)) ps out.
Proof.
  intros n mi bg z tf gf mean maxdens g ps out Sh P M MD T F H.
  assert (L : thinnest z < densest false maxdens).
  { unfold thinnest, densest. destruct (Rle_dec 1 z); apply exp_increasing; lra. }
  destruct (make_fields n mi false bg z maxdens tf gf mean g M MD L)
    as (dlo & dhi & E1 & E2 & B & Ra & Mi & Sf & _ & Tf & Gf & Me & _). cbn [densest] in E2.
  rewrite <- Tf in T. destruct (reproc_inv _ _ _ H) as (r & Hr). destruct (done_cases g dlo dhi true ps r B T F Hr) as [C1 C2].
  unfold reproc_HI in H. destruct (interp_cases eval g dlo dhi true ps B T F) as (_ & _ & C). rewrite (C C1 C2), take_dense, Sf, Ra, Mi in H.
  set (dn := filter (fun p : R * R => GridModel.leb dhi (ln (fst p))) ps) in *.
  assert (Dn : dn = [] /\ out = map (fun p => if GridModel.ltb (ln (fst p)) dhi then looked_up eval g (lh0grid g) p else 1) ps \/
    exists f, get_neutral_fraction n mi (map fst dn) (map (rescale1 g) dn) 0.24 = Value f /\
      out = place (map (fun p : R * R => GridModel.leb dhi (ln (fst p))) ps)
              (map (fun p => if GridModel.ltb (ln (fst p)) dhi then looked_up eval g (lh0grid g) p else 1) ps) f).
  { destruct dn as [|q l]; [left; injection H as <-; auto|]. right.
    change (map (fun p : R * R => (fst p, rescale1 g p)) (q :: l)) with
      ((fst q, rescale1 g q) :: map (fun p : R * R => (fst p, rescale1 g p)) l) in H. cbv iota in H.
    replace (map fst ((fst q, rescale1 g q) :: map (fun p : R * R => (fst p, rescale1 g p)) l)) with (map fst (q :: l)) in H
      by (cbn [map fst]; rewrite map_map; reflexivity).
    replace (map snd ((fst q, rescale1 g q) :: map (fun p : R * R => (fst p, rescale1 g p)) l)) with (map (rescale1 g) (q :: l)) in H
      by (cbn [map snd]; rewrite map_map; reflexivity).
    destruct (get_neutral_fraction n mi (map fst (q :: l)) (map (rescale1 g) (q :: l)) 0.24) as [f| | |]; try discriminate.
    exists f. split; [reflexivity|]. injection H as <-. reflexivity. }
  assert (Thin : forall p, In p ps -> fst p < exp 5 -> forall e, read_at (ln (energy tf gf mean (fst p) (snd p))) e ->
     (if GridModel.ltb (ln (fst p)) dhi then looked_up eval g (lh0grid g) p else 1) =
       exp (eval (densgrid g) (ienergygrid g) (lh0grid g) (ln (fst p)) e)).
  { intros p I Lp e Re. rewrite Forall_forall in F. destruct (F p I) as [D _]. rewrite <- E2 in Lp.
    apply (ln_lt_iff _ _ D) in Lp. replace (GridModel.ltb (ln (fst p)) dhi) with true by (symmetry; apply ltb_spec; exact Lp).
    unfold looked_up, log_u. rewrite Tf, Gf, Me, (read_fun _ _ _ (clamp_read _) Re). reflexivity. }
  assert (Dense : forall p, In p ps -> exp 5 <= fst p -> GridModel.leb dhi (ln (fst p)) = true).
  { intros p I Lp. rewrite Forall_forall in F. destruct (F p I) as [D _]. rewrite <- E2 in Lp. apply leb_spec. apply ln_ge_iff; assumption. }
  destruct Dn as [[Dn ->]|(f & Gf' & ->)].
  - apply map_Forall2. intros p I. split; [apply Thin; exact I|]. intros Lp. exfalso. pose proof (Dense p I Lp) as Q.
    assert (J : In p dn) by (apply filter_In; auto). rewrite Dn in J. contradiction.
  - assert (Sub : forall p, In p dn -> In p ps) by (intros p J; apply filter_In in J; apply J).
    assert (Fd : Forall (fun d => 0 < d) (map fst dn)).
    { apply Forall_forall. intros x J. apply in_map_iff in J as (p & <- & J). rewrite Forall_forall in F. apply (F p (Sub p J)). }
    assert (Fu : Forall (fun e => 0 < e) (map (rescale1 g) dn)).
    { apply Forall_forall. intros x J. apply in_map_iff in J as (p & <- & J). rewrite rescale_energy. apply energy_pos.
      rewrite Forall_forall in F. destruct (F p (Sub p J)) as [_ U]. nra. }
    assert (Len : length (map fst dn) = length (map (rescale1 g) dn)) by (rewrite !map_length; reflexivity).
    assert (Lf : length f = length dn).
    { destruct (C40_neutral_aux n mi _ _ 0.24 f Sh P ltac:(lra) Len Fd Fu Gf') as (ne & _ & Lf & _). rewrite Lf, map_length. reflexivity. }
    pose proof (place_other (R * R) (fun p => GridModel.leb dhi (ln (fst p)))
      (fun p => if GridModel.ltb (ln (fst p)) dhi then looked_up eval g (lh0grid g) p else 1) ps f Lf) as Pl. fold dn in Pl.
    assert (Pl2 : Forall2 (fun p v => In p ps /\ (if GridModel.leb dhi (ln (fst p)) then
       exists j, nth_error dn j = Some p /\ nth_error f j = Some v
       else v = (if GridModel.ltb (ln (fst p)) dhi then looked_up eval g (lh0grid g) p else 1))) ps
       (place (map (fun p : R * R => GridModel.leb dhi (ln (fst p))) ps)
              (map (fun p => if GridModel.ltb (ln (fst p)) dhi then looked_up eval g (lh0grid g) p else 1) ps) f)).
    { exact (Forall2_within _ _ _ _ _ Pl). }
    eapply Forall2_imp; [|exact Pl2]. intros p v [I Q]. split.
    + intros Lp e Re. destruct (GridModel.leb dhi (ln (fst p))) eqn:Le.
      * exfalso. apply leb_spec in Le. rewrite Forall_forall in F. destruct (F p I) as [D _]. apply (ln_ge_iff _ _ D) in Le. lra.
      * rewrite Q. apply Thin; assumption.
    + intros Lp. rewrite (Dense p I Lp) in Q. destruct Q as (j & Nj & Nv).
      assert (N1 : nth_error (map fst dn) j = Some (fst p)) by (rewrite nth_error_map, Nj; reflexivity).
      assert (N2 : nth_error (map (rescale1 g) dn) j = Some (energy tf gf mean (fst p) (snd p))).
      { rewrite nth_error_map, Nj. cbn [option_map]. rewrite rescale_energy, Tf, Gf, Me. reflexivity. }
      destruct (neutral_solution n mi _ _ f j _ _ Sh P Len Fd Fu Gf' N1 N2) as (_ & w & x & t & Nw & So & Ew & Rw).
      rewrite Nv in Nw. injection Nw as <-. exists x, t. auto.
Qed.

(** ** Counterexamples *)
Lemma C66_empty_aux : forall n mi bg z maxdens tf gf mean g p q,
  make n mi true bg z maxdens tf gf mean = Some g -> thinnest z < maxdens -> 0 < tf ->
  0 < snd p -> 0 < snd q -> thinnest z <= fst p < maxdens -> maxdens <= fst q ->
  (exists out, reproc_HI eval g ([p] ++ [q]) = Done out) /\ reproc_HI eval g [q] = EmptyMax /\ temp eval g [q] = EmptyMax.
Proof.
  intros n mi bg z maxdens tf gf mean g p q M L T Up Uq Dp Dq. pose proof (thinnest_pos _ _ L) as MD.
  assert (T0 : 0 < thinnest z) by (unfold thinnest; destruct (Rle_dec 1 z); apply exp_pos).
  assert (F1 : positive [q]) by (constructor; [split; lra|constructor]).
  assert (F2 : positive ([p] ++ [q])) by (constructor; [split; lra|exact F1]).
  split; [|split].
  - destruct (C66_fraction_aux eval n mi bg z maxdens tf gf mean g _ M L T F2) as (_ & _ & H).
    destruct H as (out & E & _); [exists p; split; [left; reflexivity|lra]| |eauto].
    intros r [<-|[<-|[]]]; lra.
  - apply (C66_fraction_aux eval n mi bg z maxdens tf gf mean g _ M L T F1). intros r [<-|[]]; lra.
  - apply (C66_temp_aux eval n mi bg z maxdens tf gf mean g _ M L T F1). intros r [<-|[]]; lra.
Qed.

Lemma C66_clamp_aux : forall n mi bg z maxdens mean g d,
  make n mi true bg z maxdens 1 1 mean = Some g -> thinnest z <= d < maxdens ->
  (forall e e', 2 <= e < e' /\ e' <= 21 ->
     eval (densgrid g) (ienergygrid g) (tempgrid g) (ln d) e < eval (densgrid g) (ienergygrid g) (tempgrid g) (ln d) e') ->
  exists u u' t t', 0 < u < u' /\ temp eval g [(d, u); (d, u')] = Done [t; t'] /\ t' < t.
Proof.
  intros n mi bg z maxdens mean g d M D Inc. assert (L : thinnest z < maxdens) by lra.
  assert (T0 : 0 < thinnest z) by (unfold thinnest; destruct (Rle_dec 1 z); apply exp_pos).
  exists (exp 20.9), (exp 21).
  assert (U : 0 < exp 20.9 < exp 21) by (split; [apply exp_pos|apply exp_increasing; lra]).
  assert (F : positive [(d, exp 20.9); (d, exp 21)]) by (constructor; [cbn [fst snd]; lra|constructor; [cbn [fst snd]; lra|constructor]]).
  destruct (C66_temp_aux eval n mi bg z maxdens 1 1 mean g _ M L ltac:(lra) F) as (_ & _ & H).
  destruct H as (out & E & V); [exists (d, exp 20.9); split; [left; reflexivity|cbn [fst]; lra]|intros p [<-|[<-|[]]]; cbn [fst]; lra|].
  inversion V as [|a t ? out1 V1 V2]; subst. inversion V2 as [|a2 t' ? out2 V3 V4]; subst. inversion V4; subst.
  exists t, t'. split; [exact U|]. split; [exact E|]. cbn [fst snd] in *.
  assert (En : forall u, energy 1 1 mean d u = u).
  { intros u. unfold energy. replace (1 - 1) with 0 by lra. unfold Rpower. rewrite Rmult_0_l, exp_0. ring. }
  rewrite !En, !ln_exp in *.
  assert (R1 : read_at 20.9 20.9) by (constructor; lra). assert (R2 : read_at 21 20.79) by (constructor; lra).
  rewrite (proj1 (V1 20.9 R1) (proj2 D)), (proj1 (V3 20.79 R2) (proj2 D)).
  apply exp_increasing. apply Inc. lra.
Qed.

End Interpolator.

(** ** Equation of state *)
Lemma C66_eos_aux : forall g ps qs u0 gamma,
  0 < mean_density g -> get_ienergy_rescaled g ps = Some qs ->
  Forall2 (fun p q => fst q = fst p /\ 0 < snd q /\ forall s, 0 < fst p ->
     snd p = s * (u0 * Rpower (fst p / mean_density g) (gamma - 1)) ->
     snd q = s * ((temp_factor g * u0) * Rpower (fst p / mean_density g) ((gamma + (gamma_factor g - 1)) - 1))) ps qs.
Proof.
  intros g ps qs u0 gamma Mp H. unfold get_ienergy_rescaled in H.
  destruct (forallb _ _) eqn:E; [|discriminate]. injection H as <-. rewrite forallb_forall in E. apply map_Forall2. intros p I.
  cbn [fst snd]. split; [reflexivity|]. split; [apply ltb_spec, (E (fst p, rescale1 g p)); apply in_map_iff; eauto|].
  intros s D Es. rewrite rescale_energy. unfold energy. rewrite Es.
  replace (gamma + (gamma_factor g - 1) - 1) with ((gamma - 1) + (gamma_factor g - 1)) by lra. rewrite Rpower_plus. ring.
Qed.

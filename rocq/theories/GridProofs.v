(** Interpolated gas properties: lemmas. *)
From Coq Require Import Reals List Bool Lia Lra.
From Verif Require Import RatesModel RatesSpec RatesProofs NeutralModel GridModel GridSpec.
Import ListNotations.
Local Open Scope R_scope.

Lemma ltb_spec : forall x y, GridModel.ltb x y = true <-> x < y.
Proof. intros. unfold GridModel.ltb. destruct (Rlt_dec x y); split; intros; auto; try lra; discriminate. Qed.
Lemma leb_spec : forall x y, GridModel.leb x y = true <-> x <= y.
Proof. intros. unfold GridModel.leb. destruct (Rle_dec x y); split; intros; auto; try lra; discriminate. Qed.
Lemma ltb_no : forall x y, GridModel.ltb x y = false <-> y <= x.
Proof. intros. unfold GridModel.ltb. destruct (Rlt_dec x y); split; intros; auto; try lra; discriminate. Qed.
Lemma leb_no : forall x y, GridModel.leb x y = false <-> y < x.
Proof. intros. unfold GridModel.leb. destruct (Rle_dec x y); split; intros; auto; try lra; discriminate. Qed.

(** ** Grids *)
Lemma linspace_nth : forall lo hi n i, (i < n)%nat ->
  nth_error (linspace lo hi n) i = Some (lo + INR i * ((hi - lo) / INR (n - 1))).
Proof.
  intros. unfold linspace. rewrite nth_error_map.
  rewrite (nth_error_nth' _ 0%nat) by (rewrite seq_length; lia). rewrite seq_nth by lia. reflexivity.
Qed.

Lemma linspace_length : forall lo hi n, length (linspace lo hi n) = n.
Proof. intros. unfold linspace. rewrite map_length, seq_length. reflexivity. Qed.

Lemma linspace_range : forall lo hi n x, lo < hi -> (2 <= n)%nat -> In x (linspace lo hi n) -> lo <= x <= hi.
Proof.
  intros lo hi n x L N I. unfold linspace in I. apply in_map_iff in I as (i & <- & I). apply in_seq in I.
  assert (P : 0 < INR (n - 1)) by (apply lt_0_INR; lia).
  assert (Q : 0 <= INR i <= INR (n - 1)) by (split; [apply pos_INR|apply le_INR; lia]).
  assert (E : INR i * ((hi - lo) / INR (n - 1)) = (hi - lo) * (INR i / INR (n - 1))) by (field; lra). rewrite E.
  assert (F : 0 <= INR i / INR (n - 1) <= 1).
  { split; [apply Rmult_le_pos; [lra|apply Rlt_le, Rinv_0_lt_compat; lra]|]. apply (Rmult_le_reg_r (INR (n - 1))); [exact P|].
    unfold Rdiv. rewrite Rmult_assoc, Rinv_l by lra. lra. }
  nra.
Qed.

Lemma linspace_ends : forall lo hi n, (2 <= n)%nat ->
  exists rest, linspace lo hi n = lo :: rest /\ last rest lo = hi /\ In hi rest.
Proof.
  intros lo hi n N. assert (P : 0 < INR (n - 1)) by (apply lt_0_INR; lia).
  assert (H : nth_error (linspace lo hi n) 0 = Some lo).
  { rewrite linspace_nth by lia. cbn [INR]. f_equal. ring. }
  assert (T : nth_error (linspace lo hi n) (n - 1) = Some hi).
  { rewrite linspace_nth by lia. f_equal. field. lra. }
  pose proof (linspace_length lo hi n) as Len.
  destruct (linspace lo hi n) as [|a rest] eqn:E; [discriminate|]. injection H as ->.
  exists rest. split; [reflexivity|]. cbn [length] in Len. replace (n - 1)%nat with (S (length rest - 1)) in T by lia.
  cbn [nth_error] in T. split; [|apply (nth_error_In _ _ T)].
  destruct (exists_last (l := rest)) as (l' & b & ->); [intros ->; cbn in Len; lia|].
  rewrite last_last. rewrite app_length in T. cbn [length] in T.
  rewrite nth_error_app2 in T by lia. replace (length l' + 1 - 1 - length l')%nat with 0%nat in T by lia.
  injection T as ->. reflexivity.
Qed.

Lemma amax_ge : forall l x y, In y l -> y <= amax x l.
Proof.
  induction l as [|a l IH]; intros x y I; [contradiction|]. cbn [amax fold_right]. destruct I as [->|I].
  - apply Rmax_l.
  - eapply Rle_trans; [apply (IH x y I)|apply Rmax_r].
Qed.
Lemma amax_le : forall l x b, x <= b -> (forall y, In y l -> y <= b) -> amax x l <= b.
Proof.
  induction l as [|a l IH]; intros x b X H; [exact X|]. cbn [amax fold_right]. apply Rmax_lub.
  - apply H; left; reflexivity.
  - apply IH; [exact X|]. intros y I; apply H; right; exact I.
Qed.
Lemma amin_le : forall l x y, In y l -> amin x l <= y.
Proof.
  induction l as [|a l IH]; intros x y I; [contradiction|]. cbn [amin fold_right]. destruct I as [->|I].
  - apply Rmin_l.
  - eapply Rle_trans; [apply Rmin_r|apply (IH x y I)].
Qed.
Lemma amin_ge : forall l x b, b <= x -> (forall y, In y l -> b <= y) -> b <= amin x l.
Proof.
  induction l as [|a l IH]; intros x b X H; [exact X|]. cbn [amin fold_right]. apply Rmin_glb.
  - apply H; left; reflexivity.
  - apply IH; [exact X|]. intros y I; apply H; right; exact I.
Qed.

Lemma linspace_extremes : forall lo hi n, lo < hi -> (2 <= n)%nat ->
  amax (hd 0 (linspace lo hi n)) (linspace lo hi n) = hi /\ amin (hd 0 (linspace lo hi n)) (linspace lo hi n) = lo.
Proof.
  intros lo hi n L N. pose proof (fun x => linspace_range lo hi n x L N) as B.
  destruct (linspace_ends lo hi n N) as (rest & E & _ & I). rewrite E in *. cbn [hd]. split; apply Rle_antisym.
  - apply amax_le; [lra|]. intros y Iy. apply B. exact Iy.
  - apply amax_ge. right; exact I.
  - apply amin_le. left; reflexivity.
  - apply amin_ge; [lra|]. intros y Iy. apply B. exact Iy.
Qed.

Lemma inside_spec : forall lo hi n x, (2 <= n)%nat -> inside (linspace lo hi n) x = true <-> lo <= x <= hi.
Proof.
  intros lo hi n x N. destruct (linspace_ends lo hi n N) as (rest & E & Lst & _). rewrite E. cbn [inside]. rewrite Lst.
  rewrite andb_true_iff, !leb_spec. reflexivity.
Qed.

(** ** The clamp *)
Lemma clamp_read : forall x, read_at x (clamp 2 21 x).
Proof.
  intros x. unfold clamp. destruct (leb 21 x) eqn:A.
  - apply leb_spec in A. replace (leb (21 * 0.99) 2) with false by (symmetry; apply leb_no; lra).
    replace (21 * 0.99) with 20.79 by lra. constructor; exact A.
  - apply leb_no in A. destruct (leb x 2) eqn:B.
    + apply leb_spec in B. replace (2 * 1.01) with 2.02 by lra. constructor; exact B.
    + apply leb_no in B. constructor; lra.
Qed.

Lemma read_fun : forall x y z, read_at x y -> read_at x z -> y = z.
Proof. intros x y z A B. destruct A; inversion B; subst; lra. Qed.
Lemma read_range : forall x y, read_at x y -> 2 < y < 21.
Proof. intros x y A. destruct A; lra. Qed.

(** ** Scatter and gather *)
Lemma place_filter : forall (A : Type) (sel : A -> bool) (h k : A -> R) l,
  place (map sel l) (map h l) (map k (filter sel l)) = map (fun a => if sel a then k a else h a) l.
Proof.
  induction l as [|a l IH]; [reflexivity|]. cbn [map filter]. destruct (sel a) eqn:E; cbn [place map]; rewrite IH; reflexivity.
Qed.

Lemma take_filter : forall (A : Type) (sel : A -> bool) l, take (map sel l) l = filter sel l.
Proof.
  induction l as [|a l IH]; [reflexivity|]. unfold take in *. cbn [map combine filter fst].
  destruct (sel a); cbn [map snd]; rewrite IH; reflexivity.
Qed.

Lemma Forall2_imp : forall (A B : Type) (P Q : A -> B -> Prop) l m, (forall a b, P a b -> Q a b) -> Forall2 P l m -> Forall2 Q l m.
Proof. intros A B P Q l m H F. induction F; constructor; auto. Qed.

(** Values from elsewhere, in order. *)
Lemma place_other : forall (A : Type) (sel : A -> bool) (h : A -> R) l f, length f = length (filter sel l) ->
  Forall2 (fun a v => if sel a then exists j, nth_error (filter sel l) j = Some a /\ nth_error f j = Some v else v = h a)
    l (place (map sel l) (map h l) f).
Proof.
  induction l as [|a l IH]; intros f Len; [constructor|]. cbn [map filter] in *. destruct (sel a) eqn:E.
  - destruct f as [|v f]; [discriminate|]. cbn [place length] in *. constructor.
    + rewrite E. exists 0%nat. split; reflexivity.
    + assert (IH' := IH f ltac:(lia)). revert IH'. generalize (place (map sel l) (map h l) f). intros out F.
      eapply Forall2_imp; [|exact F]. intros b w Hb. cbv beta in *. destruct (sel b); [|exact Hb].
      destruct Hb as (j & A1 & A2). exists (S j). split; assumption.
  - cbn [place]. constructor; [rewrite E; reflexivity|]. apply IH. exact Len.
Qed.

(** ** Rescaling *)
Lemma rescale_energy : forall g p, rescale1 g p = energy (temp_factor g) (gamma_factor g) (mean_density g) (fst p) (snd p).
Proof.
  intros g p. unfold rescale1, energy. destruct (Req_EM_T (gamma_factor g) 1) as [E|E]; [|reflexivity].
  rewrite E. replace (1 - 1) with 0 by lra. unfold Rpower. rewrite Rmult_0_l, exp_0. ring.
Qed.

Lemma energy_pos : forall tf gf mean d u, 0 < energy tf gf mean d u <-> 0 < u * tf.
Proof.
  intros. unfold energy. assert (P : 0 < Rpower (d / mean) (gf - 1)) by (unfold Rpower; apply exp_pos). split; intros H.
  - destruct (Rlt_le_dec 0 (u * tf)) as [Q|Q]; [exact Q|]. exfalso. nra.
  - apply Rmult_lt_0_compat; assumption.
Qed.

(** The object: what the theorems need of it. *)
Definition built (g : gasnet) (dlo dhi : R) : Prop :=
  exists nd, (2 <= nd)%nat /\ dlo < dhi /\ densgrid g = linspace dlo dhi nd /\ ienergygrid g = linspace 2 21 500.

Section Interpolator.
Variable eval : list R -> list R -> list (list R) -> R -> R -> R.

Definition log_u (g : gasnet) (p : R * R) : R :=
  ln (energy (temp_factor g) (gamma_factor g) (mean_density g) (fst p) (snd p)).

(** The value read from a table. *)
Definition looked_up (g : gasnet) (z : list (list R)) (p : R * R) : R :=
  exp (eval (densgrid g) (ienergygrid g) z (ln (fst p)) (clamp 2 21 (log_u g p))).

Lemma filter_map : forall (A B : Type) (f : A -> B) (sel : B -> bool) l,
  filter sel (map f l) = map f (filter (fun a => sel (f a)) l).
Proof. intros A B f sel l. induction l as [|a l IH]; [reflexivity|]. cbn [map filter]. destruct (sel (f a)); cbn [map]; rewrite IH; reflexivity. Qed.

Lemma get_interp_spec : forall g dlo dhi (nhi : bool) (ps : list (R * R)), built g dlo dhi -> Forall (fun p => 0 < snd p * temp_factor g) ps ->
  let table := if nhi then lh0grid g else tempgrid g in
  let thin := filter (fun p => GridModel.ltb (ln (fst p)) dhi) ps in
  get_interp eval g nhi ps =
    match thin with
    | [] => EmptyMax
    | _ => if forallb (fun p => GridModel.leb dlo (ln (fst p))) thin
           then Done (map (fun p => if GridModel.ltb (ln (fst p)) dhi then looked_up g table p else 1) ps,
                      map (fun p => GridModel.leb dhi (ln (fst p))) ps,
                      map (fun p => (fst p, rescale1 g p)) ps)
           else OffGrid
    end.
Proof.
  intros g dlo dhi nhi ps (nd & N & L & Dg & Eg) U table thin. unfold get_interp, get_ienergy_rescaled.
  assert (Pos : forallb (fun q => GridModel.ltb 0 (snd q)) (map (fun p => (fst p, rescale1 g p)) ps) = true).
  { apply forallb_forall. intros q I. apply in_map_iff in I as (p & <- & I). cbn [snd]. apply ltb_spec.
    rewrite rescale_energy. apply energy_pos. rewrite Forall_forall in U. exact (U p I). }
  rewrite Pos. clear Pos. rewrite Eg, Dg.
  assert (N5 : (2 <= 500)%nat) by (apply Nat.leb_le; reflexivity).
  destruct (linspace_extremes 2 21 500 ltac:(lra) N5) as [-> ->].
  destruct (linspace_extremes dlo dhi nd L N) as [-> _].
  rewrite !map_map. cbn [fst snd].
  set (lg := fun p : R * R => (ln (fst p), clamp 2 21 (ln (rescale1 g p)))).
  replace (filter (fun l : R * R => GridModel.ltb (fst l) dhi) (map lg ps)) with (map lg thin)
    by (symmetry; apply filter_map).
  assert (T : thin = [] \/ exists p0 tl, thin = p0 :: tl) by (destruct thin; eauto).
  destruct T as [T|(p0 & tl & T)]; [rewrite T; reflexivity|].
  assert (R2 : forall X : ending (list R * list bool * list (R * R)), match thin with [] => EmptyMax | _ => X end = X)
    by (rewrite T; reflexivity).
  rewrite R2. clear R2.
  set (es := map snd (map lg thin)).
  assert (Bd : forall e, In e es -> 2 < e < 21).
  { intros e I. unfold es in I. rewrite map_map in I. apply in_map_iff in I as (p & <- & _). unfold lg. cbn [snd].
    eapply read_range, clamp_read. }
  assert (He : exists e0 er, es = e0 :: er) by (unfold es; rewrite T; cbn [map]; eauto). destruct He as (e0 & er & He).
  assert (R2 : forall X : R -> ending (list R * list bool * list (R * R)), match es with [] => EmptyMax | e :: _ => X e end = X e0)
    by (rewrite He; reflexivity).
  rewrite (R2 (fun e => if ltb 21 (amax e es) || ltb (amin e es) 2 then _ else _)). clear R2.
  assert (E0 : 2 < e0 < 21) by (apply Bd; rewrite He; left; reflexivity).
  replace (GridModel.ltb 21 (amax e0 es)) with false
    by (symmetry; apply ltb_no; apply amax_le; [lra|intros y I; apply Bd in I; lra]).
  replace (GridModel.ltb (amin e0 es) 2) with false
    by (symmetry; apply ltb_no; apply amin_ge; [lra|intros y I; apply Bd in I; lra]).
  cbn [orb]. unfold interpolate_2d.
  assert (Eq : forallb (fun p => inside (linspace dlo dhi nd) (fst p) && inside (linspace 2 21 500) (snd p)) (map lg thin)
               = forallb (fun p => GridModel.leb dlo (ln (fst p))) thin).
  { apply eq_true_iff_eq. rewrite !forallb_forall. split; intros H p I.
    - specialize (H (lg p) (in_map lg _ _ I)). apply andb_true_iff in H as [H _]. unfold lg in H. cbn [fst] in H.
      apply inside_spec in H; [|exact N]. apply leb_spec. apply H.
    - apply in_map_iff in I as (q & <- & I). assert (T2 := I). unfold thin in T2. apply filter_In in T2 as [_ T2]. apply ltb_spec in T2.
      specialize (H q I). apply leb_spec in H. apply andb_true_iff. unfold lg. cbn [fst snd]. split; apply inside_spec; auto; [lra|].
      pose proof (read_range _ _ (clamp_read (ln (rescale1 g q)))). lra. }
  rewrite Eq. destruct (forallb _ thin); [|reflexivity].
  f_equal. f_equal. f_equal.
  rewrite !map_map. rewrite <- Dg, <- Eg.
  rewrite <- (place_filter (R * R) (fun p => GridModel.ltb (ln (fst p)) dhi) (fun _ => 1) (looked_up g table) ps).
  f_equal. fold thin. apply map_ext. intros p. unfold looked_up, log_u, lg. cbn [fst snd]. rewrite rescale_energy. reflexivity.
Qed.

End Interpolator.

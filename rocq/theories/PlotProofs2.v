(** The plot of densities against velocities, and the cached velocity. *)
From Coq Require Import ZArith List Reals Lra Lia Sorting.Sorted.
From Flocq Require Import Core.Raux.
From Verif Require Import IndexModel FilterModel SessionProofs PlotModel PlotSpec PlotProofs.
Import ListNotations.
Local Open Scope R_scope.

Lemma update_nth_at : forall (A : Type) (f : A -> A) l r d, (r < length l)%nat -> nth r (update_nth r f l) d = f (nth r l d).
Proof. intros A f l. induction l as [|x l IH]; intros [|r] d H; cbn [update_nth nth length] in *; try lia; auto. apply IH. lia. Qed.
Lemma update_nth_out : forall (A : Type) (f : A -> A) l r r' d, r <> r' -> nth r' (update_nth r f l) d = nth r' l d.
Proof. intros A f l. induction l as [|x l IH]; intros [|r] [|r'] d H; cbn [update_nth nth] in *; try congruence; auto. Qed.

(** What line 106 does to the cached array. *)
Definition shifted (num ax : nat) (shift : R) (v : velocities) : velocities := update_nth num (map (update_nth ax (fun x => x - shift))) v.

Lemma shifted_speed : forall num ax shift v den num' i ax', velocity_of v num den -> (ax < 3)%nat -> (i < length (nth num' v []))%nat ->
  speed (shifted num ax shift v) num' i ax' =
  if (Nat.eqb num' num && Nat.eqb ax' ax)%bool then speed v num' i ax' - shift else speed v num' i ax'.
Proof.
  intros num ax shift v den num' i ax' (V1 & V2 & V3) Ha Hi. unfold speed, shifted.
  destruct (Nat.eqb_spec num' num) as [-> |N]; cbn [andb].
  - rewrite update_nth_at by exact V1. rewrite (nth_indep _ [] (update_nth ax (fun x => x - shift) [])) by (rewrite map_length; exact Hi).
    rewrite map_nth. pose proof (V3 _ (nth_In _ [] Hi)) as L. destruct (Nat.eqb_spec ax' ax) as [-> |N'].
    + apply update_nth_at. rewrite L. exact Ha.
    + apply update_nth_out. congruence.
  - rewrite update_nth_out by congruence. reflexivity.
Qed.

Lemma shifted_shape : forall num ax shift v num' den, velocity_of v num' den -> velocity_of (shifted num ax shift v) num' den.
Proof.
  intros num ax shift v num' den (V1 & V2 & V3). unfold shifted, velocity_of.
  assert (L : length (update_nth num (map (update_nth ax (fun x => x - shift))) v) = length v) by apply update_nth_length'.
  rewrite L. split; [exact V1|]. destruct (Nat.eq_dec num' num) as [-> |N].
  - rewrite update_nth_at by exact V1. rewrite map_length. split; [exact V2|]. intros p Hp. apply in_map_iff in Hp. destruct Hp as (q & <- & Hq).
    rewrite update_nth_length'. apply V3, Hq.
  - rewrite update_nth_out by congruence. auto.
Qed.

Lemma component_nth : forall v num ax i, (i < length (nth num v []))%nat -> nth i (component v num ax) 0 = speed v num i ax.
Proof.
  intros v num ax i H. unfold component, speed. set (f := fun p : list R => nth ax p 0).
  rewrite (nth_indep _ 0 (f [])) by (rewrite map_length; exact H). apply map_nth.
Qed.

Lemma state_after : forall dvbin nbins den num axis thresh voff xscale v, den <> [] -> velocity_of v num den ->
  exists imax, first_largest den imax /\
    snd (plot_den_to_tau dvbin nbins den num axis thresh voff xscale v) = shifted num (axis - 1) (speed v num imax (axis - 1) - voff) v.
Proof.
  intros dvbin nbins den num axis thresh voff xscale v N V. destruct (argmax_exists den N) as (p & w & A).
  destruct (argmax_first _ _ _ A) as [F _]. exists p. split; [exact F|]. unfold plot_den_to_tau. rewrite A.
  rewrite component_nth by (destruct V as (_ & -> & _); apply F). fold (shifted num (axis - 1) (speed v num p (axis - 1) - voff) v).
  destruct (assign _ _ _) as [c1|]; [|reflexivity]. destruct (assign _ _ _) as [c2|]; reflexivity.
Qed.

(** ** The cache after the call, whether or not it raises *)
Lemma C109_cache_aux : forall dvbin nbins den num axis thresh voff xscale v, den <> [] -> velocity_of v num den -> (1 <= axis <= 3)%nat ->
  exists imax, first_largest den imax /\ forall num' i ax, (i < length (nth num' v []))%nat ->
    speed (snd (plot_den_to_tau dvbin nbins den num axis thresh voff xscale v)) num' i ax =
    if (Nat.eqb num' num && Nat.eqb ax (axis - 1))%bool then speed v num i (axis - 1) - speed v num imax (axis - 1) + voff else speed v num' i ax.
Proof.
  intros dvbin nbins den num axis thresh voff xscale v N V Ha. destruct (state_after dvbin nbins den num axis thresh voff xscale v N V) as (p & F & E).
  exists p. split; [exact F|]. intros num' i ax Hi. rewrite E, (shifted_speed _ _ _ _ den) by (assumption || lia).
  destruct (Nat.eqb_spec num' num) as [-> |]; [|reflexivity]. destruct (Nat.eqb_spec ax (axis - 1)) as [-> |]; [|reflexivity]. cbn [andb]. ring.
Qed.

(** ** When it raises *)
Lemma above_length : forall t l, length (above t l) = bright t l.
Proof.
  intros t l. unfold above, bright.
  assert (G : forall l' s, (forall i, (i < length l')%nat -> nth (s + i) l 0 = nth i l' 0) ->
    length (filter (fun i => if Rlt_dec t (nth i l 0) then true else false) (seq s (length l'))) = length (filter (fun d => if Rlt_dec t d then true else false) l')).
  { induction l' as [|x l' IH]; intros s H; [reflexivity|]. cbn [length seq filter]. pose proof (H 0%nat ltac:(cbn; lia)) as H0. rewrite Nat.add_0_r in H0. cbn [nth] in H0.
    rewrite H0. assert (IH' : forall i, (i < length l')%nat -> nth (S s + i) l 0 = nth i l' 0).
    { intros i Hi. specialize (H (S i) ltac:(cbn; lia)). cbn [nth] in H. rewrite <- H. f_equal. lia. }
    specialize (IH (S s) IH'). destruct (Rlt_dec t x); cbn [length]; [f_equal|]; exact IH. }
  apply (G l 0%nat). intros i Hi. reflexivity.
Qed.

Lemma bright_peak : forall t l p, first_largest l p -> (0 < bright t l)%nat -> In p (above t l).
Proof.
  intros t l p (F1 & F2 & _) H. rewrite <- above_length in H. destruct (above t l) as [|i r] eqn:A; [cbn in H; lia|].
  rewrite <- A. apply above_in. split; [exact F1|]. assert (In i (above t l)) as Hi by (rewrite A; left; reflexivity). apply above_in in Hi.
  specialize (F2 i (proj1 Hi)). lra.
Qed.

Lemma select_all : forall (p : R -> bool) l, length (filter (fun b => b) (map p l)) = length l -> forall x, In x l -> p x = true.
Proof.
  intros p l. induction l as [|y l IH]; intros H x Hx; [destruct Hx|]. cbn [map filter] in H.
  assert (B : (length (filter (fun b : bool => b) (map p l)) <= length l)%nat).
  { clear. induction l as [|z l IH]; [cbn; lia|]. cbn [map filter length]. destruct (p z); cbn [length]; lia. }
  destruct (p y) eqn:P; cbn [length] in H; [|lia]. destruct Hx as [<- |Hx]; [exact P|apply IH; [lia|exact Hx]].
Qed.

Lemma assign_fails : forall (p : R -> bool) c vals, length vals = length c -> (2 <= length c)%nat -> (exists x, In x c /\ p x = false) ->
  assign c (map p c) vals = None.
Proof.
  intros p c vals L H (x & Hx & P). unfold assign. destruct vals as [|v1 [|v2 vals]]; [cbn in L; lia|cbn in L; lia|].
  rewrite L. destruct (Nat.eqb_spec (length (filter (fun b : bool => b) (map p c))) (length c)) as [E|]; [|reflexivity].
  rewrite (select_all p c E x Hx) in P. discriminate.
Qed.

Lemma C109_raises_aux : forall dvbin nbins den num axis thresh voff xscale v, den <> [] -> (0 < nbins)%nat ->
  (fst (plot_den_to_tau dvbin nbins den num axis thresh voff xscale v) = Error <-> (2 <= bright thresh den)%nat).
Proof.
  intros dvbin nbins den num axis thresh voff xscale v N Hn. destruct (argmax_exists den N) as (p & w & A).
  destruct (argmax_first _ _ _ A) as [F _]. unfold plot_den_to_tau. rewrite A. rewrite <- above_length.
  assert (Nb : 0 < INR nbins) by (apply (lt_INR 0), Hn).
  destruct (above thresh den) as [|i [|i2 r]] eqn:Ab.
  - cbn. split; [discriminate|lia].
  - assert (Hp : In p (above thresh den)). { apply bright_peak; [exact F|]. rewrite <- above_length, Ab. cbn. lia. }
    rewrite Ab in Hp. destruct Hp as [<- |[]]. cbn [map]. rewrite Rminus_diag_eq, Rmult_0_l by reflexivity.
    destruct (Rlt_dec (INR nbins / 2) 0); [lra|]. cbn [assign put filter length repeat map].
    destruct (Rlt_dec 0 (- (INR nbins / 2))); [lra|]. cbn [assign put filter length repeat map combine fst]. split; [discriminate|lia].
  - assert (Hp : In p (above thresh den)). { apply bright_peak; [exact F|]. rewrite <- above_length, Ab. cbn. lia. }
    rewrite (assign_fails (fun x => if Rlt_dec (INR nbins / 2) x then true else false)).
    + cbn [fst]. split; [intros _; cbn; lia|reflexivity].
    + rewrite !map_length. reflexivity.
    + rewrite map_length. cbn. lia.
    + exists 0. split; [|destruct (Rlt_dec (INR nbins / 2) 0); [lra|reflexivity]].
      apply in_map_iff. exists p. rewrite <- Ab. split; [ring|exact Hp].
Qed.

(** ** What it draws when it does not *)
Lemma C109_drawn_aux : forall dvbin nbins den num axis thresh voff xscale v, den <> [] -> (0 < nbins)%nat -> velocity_of v num den -> (1 <= axis <= 3)%nat -> xscale <> 0 ->
  (bright thresh den = 0%nat -> fst (plot_den_to_tau dvbin nbins den num axis thresh voff xscale v) = Lines []) /\
  (bright thresh den = 1%nat -> exists l, fst (plot_den_to_tau dvbin nbins den num axis thresh voff xscale v) = Lines [l] /\ length l = 10%nat /\
     forall i, (i < 10)%nat -> nth i l (0, 0) = (INR i / 9 * voff, INR i / 9)).
Proof.
  intros dvbin nbins den num axis thresh voff xscale v N Hn V Ha Hx.
  destruct (C109_cache_aux dvbin nbins den num axis thresh voff xscale v N V Ha) as (p' & F' & C).
  destruct (argmax_exists den N) as (p & w & A). destruct (argmax_first _ _ _ A) as [F _].
  assert (Nb : 0 < INR nbins) by (apply (lt_INR 0), Hn).
  assert (p' = p). { destruct F as (F1 & F2 & F3), F' as (G1 & G2 & G3). destruct (Nat.lt_total p p') as [L|[L|L]]; [|auto|].
    - specialize (G3 p L). specialize (F2 p' G1). lra. - specialize (F3 p' L). specialize (G2 p F1). lra. }
  subst p'. specialize (C num p (axis - 1)%nat). destruct V as (V1 & V2 & V3). specialize (C ltac:(rewrite V2; apply F)). rewrite !Nat.eqb_refl in C. cbn [andb] in C.
  unfold plot_den_to_tau in *. rewrite A in *. rewrite <- above_length.
  destruct (above thresh den) as [|i [|i2 r]] eqn:Ab.
  - split; [intros _; cbn; reflexivity|cbn; discriminate].
  - split; [cbn; discriminate|]. intros _.
    assert (Hp : In p (above thresh den)). { apply bright_peak; [exact F|]. rewrite <- above_length, Ab. cbn. lia. }
    rewrite Ab in Hp. destruct Hp as [<- |[]]. cbn [map] in *. rewrite (Rminus_diag_eq (INR i) (INR i)), Rmult_0_l in * by reflexivity.
    destruct (Rlt_dec (INR nbins / 2) 0); [lra|]. cbn [assign put filter length repeat map] in *.
    destruct (Rlt_dec 0 (- (INR nbins / 2))); [lra|]. cbn [assign put filter length repeat map combine fst snd] in *.
    eexists. split; [reflexivity|]. split; [reflexivity|].
    fold (shifted num (axis - 1) (nth i (component v num (axis - 1)) 0 - voff) v) in *.
    rewrite component_nth by (pose proof (shifted_shape num (axis - 1) (nth i (component v num (axis - 1)) 0 - voff) v num den (conj V1 (conj V2 V3))) as (_ & -> & _); apply F).
    rewrite C. replace (0 + (speed v num i (axis - 1) - speed v num i (axis - 1) + voff)) with voff by ring. replace (0 / xscale) with 0 by (field; exact Hx).
    intros j Hj. unfold linspace10. rewrite combine_nth by reflexivity.
    set (f := fun i0 : nat => 0 + INR i0 * ((voff - 0) / 9)). set (g := fun i0 : nat => 0 + INR i0 * ((1 - 0) / 9)).
    rewrite (nth_indep (map f (seq 0 10)) 0 (f 0%nat)) by (rewrite map_length, seq_length; exact Hj).
    rewrite (nth_indep (map g (seq 0 10)) 0 (g 0%nat)) by (rewrite map_length, seq_length; exact Hj).
    rewrite !map_nth, !seq_nth by exact Hj. unfold f, g. cbn [Nat.add]. f_equal; field.
  - split; cbn; discriminate.
Qed.

(** ** A sequence of plots *)
Lemma C109_history_aux : forall dvbin nbins (den : nat -> list R) (axis : nat -> nat) v cs,
  (forall c, In c cs -> c_den c = den (c_num c) /\ c_axis c = axis (c_num c) /\ den (c_num c) <> [] /\ velocity_of v (c_num c) (den (c_num c)) /\ (1 <= axis (c_num c) <= 3)%nat) ->
  forall num,
    ((forall c, In c cs -> c_num c <> num) -> forall i ax, (i < length (nth num v []))%nat -> speed (plots dvbin nbins cs v) num i ax = speed v num i ax) /\
    (forall before c after, cs = before ++ c :: after -> c_num c = num -> (forall c', In c' after -> c_num c' <> num) ->
       exists imax, first_largest (den num) imax /\ forall i ax, (i < length (nth num v []))%nat ->
         speed (plots dvbin nbins cs v) num i ax = if Nat.eqb ax (axis num - 1) then speed v num i ax - speed v num imax ax + c_voff c else speed v num i ax).
Proof.
  intros dvbin nbins den axis v cs. revert v. induction cs as [|c0 cs IH]; intros v H num.
  - split; [reflexivity|]. intros [|b before] c after E; discriminate.
  - destruct (H c0 (or_introl eq_refl)) as (D0 & A0 & N0 & V0 & X0).
    set (v1 := snd (plot_den_to_tau dvbin nbins (c_den c0) (c_num c0) (c_axis c0) (c_thresh c0) (c_voff c0) 1 v)).
    assert (C0 : exists imax, first_largest (den (c_num c0)) imax /\ v1 = shifted (c_num c0) (axis (c_num c0) - 1) (speed v (c_num c0) imax (axis (c_num c0) - 1) - c_voff c0) v).
    { unfold v1. rewrite D0, A0. apply state_after; assumption. }
    destruct C0 as (p & Fp & E1).
    assert (Len : forall n, length (nth n v1 []) = length (nth n v [])).
    { intros n. rewrite E1. unfold shifted. destruct (Nat.eq_dec n (c_num c0)) as [-> |Nn]; [|rewrite update_nth_out by congruence; reflexivity].
      rewrite update_nth_at by (apply V0). apply map_length. }
    assert (H1 : forall c, In c cs -> c_den c = den (c_num c) /\ c_axis c = axis (c_num c) /\ den (c_num c) <> [] /\ velocity_of v1 (c_num c) (den (c_num c)) /\ (1 <= axis (c_num c) <= 3)%nat).
    { intros c Hc. destruct (H c (or_intror Hc)) as (G1 & G2 & G3 & G4 & G5). repeat split; try assumption; try apply G5; rewrite E1; apply (shifted_shape _ _ _ _ _ _ G4). }
    destruct (IH v1 H1 num) as [I1 I2].
    assert (Step : forall n i ax, (i < length (nth n v []))%nat -> speed v1 n i ax =
       if (Nat.eqb n (c_num c0) && Nat.eqb ax (axis (c_num c0) - 1))%bool then speed v n i ax - (speed v (c_num c0) p (axis (c_num c0) - 1) - c_voff c0) else speed v n i ax).
    { intros n i ax Hi. rewrite E1. apply (shifted_speed _ _ _ _ (den (c_num c0))); [assumption|lia|exact Hi]. }
    cbn [plots]. fold v1. split.
    + intros Nn i ax Hi. rewrite I1; [|intros c Hc; apply Nn; right; exact Hc|rewrite Len; exact Hi]. rewrite Step by exact Hi.
      destruct (Nat.eqb_spec num (c_num c0)) as [E|]; [|reflexivity]. exfalso. apply (Nn c0); [left; reflexivity|congruence].
    + intros [|b before] c after E Hc Ha; cbn [app] in E; injection E as E2 E3.
      * subst c0 cs. exists p. rewrite Hc in *. split; [exact Fp|]. intros i ax Hi. rewrite I1 by (exact Ha || (rewrite Len; exact Hi)).
        rewrite Step by exact Hi. rewrite Nat.eqb_refl. cbn [andb]. destruct (Nat.eqb_spec ax (axis num - 1)) as [-> |]; [ring|reflexivity].
      * subst b. destruct (I2 before c after E3 Hc Ha) as (q & Fq & S). exists q. split; [exact Fq|]. intros i ax Hi.
        assert (Hq : (q < length (nth num v []))%nat).
        { destruct (H c) as (_ & _ & _ & (_ & G & _) & _); [rewrite E3; right; apply in_or_app; right; left; reflexivity|]. rewrite Hc in G. rewrite G. apply Fq. }
        rewrite S by (rewrite Len; exact Hi). rewrite !Step by assumption.
        destruct (Nat.eqb_spec ax (axis num - 1)) as [-> |Nax].
        -- destruct (Nat.eqb num (c_num c0) && Nat.eqb (axis num - 1) (axis (c_num c0) - 1))%bool; ring.
        -- destruct (Nat.eqb_spec num (c_num c0)) as [En|]; [|reflexivity]. rewrite <- En. destruct (Nat.eqb_spec ax (axis num - 1)); [congruence|reflexivity].
Qed.

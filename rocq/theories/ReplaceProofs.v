(** Proofs about replacing sightlines. *)
From Coq Require Import ZArith List Reals Arith Lra Lia.
From Verif Require Import AbsorptionSpec FilterModel ReplaceModel ReplaceSpec.
Import ListNotations.
Local Open Scope R_scope.

Lemma over_passes : forall th x, over th x = true <-> passes th x.
Proof.
  intros [t|lo hi] x; cbn.
  - destruct (Rlt_dec t x); split; intros; try assumption; try reflexivity; try discriminate; contradiction.
  - destruct (Rlt_dec lo x), (Rlt_dec x hi); split; intros; try tauto; try discriminate.
Qed.

Lemma selection_det : forall (A : Type) (Q : A -> Prop) l s s', selection Q l s -> selection Q l s' -> s = s'.
Proof.
  intros A Q l s s' H. revert s'. induction H; intros s' H'; inversion H'; subst; try contradiction; try reflexivity; f_equal; auto.
Qed.

Lemma selection_filter : forall (A : Type) (Q : A -> Prop) f l, (forall x, f x = true <-> Q x) -> selection Q l (filter f l).
Proof.
  intros A Q f l H. induction l as [|x l IH]; [constructor|]. cbn [filter]. destruct (f x) eqn:E.
  - constructor; [apply H; assumption|assumption].
  - constructor; [|assumption]. intros C. apply H in C. congruence.
Qed.

Lemma assign_exact : forall (X : Type) (buf : list (option X)) lo hi src, (lo <= hi)%nat -> (hi <= length buf)%nat -> length src = (hi - lo)%nat ->
  assign_rows buf lo hi src = Some (firstn lo buf ++ map Some src ++ skipn hi buf).
Proof.
  intros X buf lo hi src H1 H2 H3. unfold assign_rows. rewrite !Nat.min_l by lia. rewrite H3, Nat.eqb_refl. reflexivity.
Qed.

Section Proofs.
Variable P : Type.
Variable col : P -> Z -> list R.
Variable th : threshold.
Variable axis : list Z.
Variable gen : nat -> list P.
Hypothesis Hlen : forall j, length (gen j) = length axis.

Let L := length axis.
Let good (s : P * Z) : bool := over th (rsum (col (fst s) (snd s))).
Let with_col (s : P * Z) : P * list R := (fst s, col (fst s) (snd s)).

Lemma filter_DLA_eq : forall j, filter_DLA P col th axis (gen j) = map with_col (filter good (combine (gen j) axis)).
Proof.
  intros j. unfold filter_DLA. induction (combine (gen j) axis) as [|s l IH]; [reflexivity|]. cbn [map filter].
  unfold good at 1. cbn [snd]. destruct (over th (rsum (col (fst s) (snd s)))); cbn [map]; rewrite IH; reflexivity.
Qed.

Definition sel (m : nat) : list (P * Z) := filter good (generated axis gen m).

Lemma filter_app' : forall (A : Type) (f : A -> bool) a b, filter f (a ++ b) = filter f a ++ filter f b.
Proof. intros. induction a as [|x a IH]; [reflexivity|]. cbn. rewrite IH. destruct (f x); reflexivity. Qed.

Lemma sel_S : forall m, sel (S m) = sel m ++ filter good (combine (gen m) axis).
Proof.
  intros m. unfold sel, generated. replace (S m) with (m + 1)%nat by lia. rewrite seq_app, flat_map_app, filter_app'.
  cbn [seq flat_map plus]. rewrite app_nil_r. reflexivity.
Qed.

Lemma filter_len : forall (A : Type) (f : A -> bool) l, (length (filter f l) <= length l)%nat.
Proof. intros. induction l as [|x l IH]; [cbn; lia|]. cbn. destruct (f x); cbn; lia. Qed.

Lemma sel_bound : forall m, (length (sel m) <= L * m)%nat.
Proof.
  induction m as [|m IH]; [unfold sel; cbn; lia|]. rewrite sel_S, app_length.
  pose proof (filter_len _ good (combine (gen m) axis)) as H. rewrite combine_length, Hlen in H. unfold L in *. lia.
Qed.

(** State after m batches. *)
Definition inv (n m : nat) (s : state P) : Prop :=
  found P s = length (sel m) /\ discarded P s = (L * m - length (sel m))%nat /\
  top P s = min n (length (sel m)) /\
  length (cofm_buf P s) = n /\ length (h1_buf P s) = L /\
  firstn (top P s) (cofm_buf P s) = map (fun x => Some (fst x)) (firstn n (sel m)) /\
  firstn (top P s) (h1_buf P s) = map (fun x => Some (col (fst x) (snd x))) (firstn n (sel m)).

Lemma firstn_app_exact : forall (A : Type) (a b : list A) n, length a = n -> firstn n (a ++ b) = a.
Proof. intros A a b n <-. rewrite firstn_app, firstn_all, Nat.sub_diag. cbn. apply app_nil_r. Qed.

Lemma firstn_firstn_app : forall (A : Type) (a b : list A) n, (length a <= n)%nat -> firstn n (a ++ b) = a ++ firstn (n - length a) b.
Proof. intros. rewrite firstn_app, firstn_all2 by assumption. reflexivity. Qed.

Lemma store_inv : forall n m s, (n <= L)%nat -> inv n m s -> (length (sel m) < n \/ m = O)%nat ->
  exists s', store P n L (filter_DLA P col th axis (gen m)) s = Some s' /\ inv n (S m) s'.
Proof.
  intros n m s Hn (F & D & T & Lc & Lh & Bc & Bh) Hm.
  assert (Hlt : (length (sel m) <= n)%nat) by (destruct Hm as [H| ->]; [lia|unfold sel; cbn; lia]).
  set (ind := filter good (combine (gen m) axis)).
  assert (Hind : (length ind <= L)%nat).
  { pose proof (filter_len _ good (combine (gen m) axis)) as H. rewrite combine_length, Hlen in H. unfold ind, L. lia. }
  unfold store. rewrite filter_DLA_eq. fold ind. rewrite map_length, F.
  set (t := min n (length (sel m) + length ind)). rewrite firstn_map, !map_map.
  set (rows := firstn (t - length (sel m)) ind).
  assert (Lr : length rows = (t - length (sel m))%nat) by (unfold rows; rewrite firstn_length; lia).
  rewrite (assign_exact _ (cofm_buf P s)); [|lia|lia|rewrite map_length; lia].
  rewrite (assign_exact _ (h1_buf P s)); [|lia|lia|rewrite map_length; lia].
  eexists. split; [reflexivity|]. unfold inv. cbn [found discarded top cofm_buf h1_buf].
  rewrite sel_S. fold ind. rewrite app_length. pose proof (sel_bound m).
  rewrite T, Nat.min_r in Bc, Bh by lia. rewrite (firstn_all2 (sel m)) in Bc, Bh by lia.
  assert (Hf : firstn n (sel m ++ ind) = sel m ++ rows).
  { rewrite firstn_firstn_app by lia. f_equal. unfold rows, t. destruct (Nat.le_gt_cases n (length (sel m) + length ind)).
    - rewrite Nat.min_l by assumption. reflexivity.
    - rewrite Nat.min_r by lia. rewrite !firstn_all2 by lia. reflexivity. }
  split; [reflexivity|]. split; [unfold L in *; lia|]. split; [reflexivity|].
  split. { rewrite !app_length, firstn_length, !map_length, skipn_length. lia. }
  split. { rewrite !app_length, firstn_length, !map_length, skipn_length. lia. }
  rewrite Hf, !map_app. split.
  - rewrite Bc, app_assoc, map_map. apply firstn_app_exact. rewrite app_length, !map_length. lia.
  - rewrite Bh, app_assoc, map_map. apply firstn_app_exact. rewrite app_length, !map_length. lia.
Qed.

Lemma more_done : forall n k, (1 <= n <= L)%nat -> (n <= length (sel (S k)))%nat -> (forall j, (j <= k)%nat -> (length (sel j) < n)%nat) ->
  forall d fuel m s, (m + d = S k)%nat -> (1 <= m)%nat -> (d <= fuel)%nat -> inv n m s ->
  exists r, more P col fuel th n axis gen m s = Done r /\
    new_cofm r = map (fun x => Some (fst x)) (firstn n (sel (S k))) /\
    new_colden r = map (fun x => Some (col (fst x) (snd x))) (firstn n (sel (S k))) /\
    new_axis r = firstn n axis /\ new_numlos r = n /\
    new_discarded r = ((L * S k - length (sel (S k))) * n / length (sel (S k)))%nat.
Proof.
  intros n k Hn Hk Hj. induction d as [|d IH]; intros fuel m s E Hm Hf I.
  - assert (Em : m = S k) by lia. subst m. clear E.
    destruct I as (F & D & T & Lc & Lh & Bc & Bh).
    assert (Hx : more P col fuel th n axis gen (S k) s = finish P n axis s).
    { destruct fuel; cbn [more]; destruct (Nat.ltb_spec (found P s) n); [lia|reflexivity|lia|reflexivity]. }
    rewrite Hx. unfold finish. destruct (Nat.eqb_spec (found P s) 0); [lia|]. eexists. split; [reflexivity|].
    cbn [new_cofm new_axis new_colden new_discarded new_numlos].
    rewrite T, Nat.min_l in Bc by lia. rewrite firstn_all2 in Bc by lia.
    split; [assumption|]. split; [assumption|]. split; [reflexivity|]. split; [reflexivity|]. rewrite D, F. reflexivity.
  - destruct fuel as [|fuel]; [lia|]. cbn [more].
    assert (Hlt : (length (sel m) < n)%nat) by (apply Hj; lia).
    destruct (Nat.ltb_spec (found P s) n) as [_|C]; [|destruct I as (F & _); lia].
    destruct (store_inv n m s ltac:(lia) I ltac:(left; assumption)) as (s' & Es & I').
    fold L. rewrite Es. apply IH; try assumption; lia.
Qed.

Definition start (n : nat) : state P :=
  {| found := 0; discarded := 0; top := 0; cofm_buf := firstn n (repeat None (length (gen O))); h1_buf := repeat None (length (gen O)) |}.

Lemma start_inv : forall n, (n <= L)%nat -> inv n 0 (start n).
Proof.
  intros n Hn. unfold inv, start, sel. cbn [found discarded top cofm_buf h1_buf generated seq flat_map filter length].
  rewrite Hlen. split; [reflexivity|]. split; [lia|]. split; [lia|]. split; [rewrite firstn_length, repeat_length; fold L; lia|].
  split; [apply repeat_length|]. rewrite firstn_nil. split; reflexivity.
Qed.

Lemma replace_done : forall fuel n k, (1 <= n <= L)%nat -> (n <= length (sel (S k)))%nat -> (forall j, (j <= k)%nat -> (length (sel j) < n)%nat) -> (k <= fuel)%nat ->
  exists r, replace_not_DLA P col fuel th n axis gen = Done r /\
    new_cofm r = map (fun x => Some (fst x)) (firstn n (sel (S k))) /\
    new_colden r = map (fun x => Some (col (fst x) (snd x))) (firstn n (sel (S k))) /\
    new_axis r = firstn n axis /\ new_numlos r = n /\
    new_discarded r = ((L * S k - length (sel (S k))) * n / length (sel (S k)))%nat.
Proof.
  intros fuel n k Hn Hk Hj Hf. unfold replace_not_DLA. fold (start n).
  destruct (store_inv n 0 (start n) ltac:(lia) (start_inv n ltac:(lia)) ltac:(right; reflexivity)) as (s' & Es & I').
  fold L. rewrite Es. apply (more_done n k Hn Hk Hj k); try assumption; lia.
Qed.

Lemma replace_running : forall fuel n, (1 <= n <= L)%nat -> (forall j, (length (sel j) < n)%nat) ->
  replace_not_DLA P col fuel th n axis gen = Running.
Proof.
  intros fuel n Hn Hj. unfold replace_not_DLA. fold (start n).
  destruct (store_inv n 0 (start n) ltac:(lia) (start_inv n ltac:(lia)) ltac:(right; reflexivity)) as (s' & Es & I').
  fold L. rewrite Es. clear Es. revert I'. generalize 1%nat as m. revert s'. induction fuel as [|fuel IH]; intros s m I; cbn [more].
  - destruct (Nat.ltb_spec (found P s) n) as [_|C]; [reflexivity|]. destruct I as (F & _). specialize (Hj m). lia.
  - destruct (Nat.ltb_spec (found P s) n) as [_|C]; [|destruct I as (F & _); specialize (Hj m); lia].
    destruct (store_inv n m s ltac:(lia) I ltac:(left; apply Hj)) as (s' & Es & I'). fold L. rewrite Es. apply IH. assumption.
Qed.
End Proofs.

Lemma good_passes : forall (P : Type) (col : P -> Z -> list R) th (s : P * Z),
  over th (rsum (col (fst s) (snd s))) = true <-> passes th (rsum (col (fst s) (snd s))).
Proof. intros. apply over_passes. Qed.

Lemma sel_selection : forall (P : Type) (col : P -> Z -> list R) th axis (gen : nat -> list P) m,
  selection (fun s => passes th (rsum (col (fst s) (snd s)))) (generated axis gen m) (sel P col th axis gen m).
Proof. intros. apply selection_filter. intros s. apply over_passes. Qed.

Lemma C22_result_aux : forall (P : Type) (col : P -> Z -> list R) fuel th n axis (gen : nat -> list P) k found,
  (1 <= n <= length axis)%nat -> (forall j, length (gen j) = length axis) ->
  selection (fun s => passes th (rsum (col (fst s) (snd s)))) (generated axis gen (S k)) found ->
  (n <= length found)%nat ->
  (forall j sub, (j <= k)%nat -> selection (fun s => passes th (rsum (col (fst s) (snd s)))) (generated axis gen j) sub -> (length sub < n)%nat) ->
  (k <= fuel)%nat ->
  exists r, replace_not_DLA P col fuel th n axis gen = Done r /\
    new_cofm r = map (fun x => Some (fst x)) (firstn n found) /\
    new_colden r = map (fun x => Some (col (fst x) (snd x))) (firstn n found) /\
    new_axis r = firstn n axis /\ new_numlos r = n /\
    new_discarded r = ((length axis * S k - length found) * n / length found)%nat.
Proof.
  intros P col fuel th n axis gen k fd Hn Hlen Hs Hl Hj Hf.
  assert (E : fd = sel P col th axis gen (S k)) by (eapply selection_det; [eassumption|apply sel_selection]). subst fd.
  apply replace_done; try assumption. intros j H. apply (Hj j _ H). apply sel_selection.
Qed.

Lemma C22_running_aux : forall (P : Type) (col : P -> Z -> list R) fuel th n axis (gen : nat -> list P),
  (1 <= n <= length axis)%nat -> (forall j, length (gen j) = length axis) ->
  (forall j sub, selection (fun s => passes th (rsum (col (fst s) (snd s)))) (generated axis gen j) sub -> (length sub < n)%nat) ->
  replace_not_DLA P col fuel th n axis gen = Running.
Proof.
  intros P col fuel th n axis gen Hn Hlen Hj. apply replace_running; try assumption. intros j. apply (Hj j). apply sel_selection.
Qed.

Lemma more_fuel : forall (P : Type) (col : P -> Z -> list R) th n axis (gen : nat -> list P) fuel j s r,
  more P col fuel th n axis gen j s = Done r -> new_axis r = firstn n axis /\ new_numlos r = n.
Proof.
  intros P col th n axis gen. assert (F : forall s r, finish P n axis s = Done r -> new_axis r = firstn n axis /\ new_numlos r = n).
  { intros s r H. unfold finish in H. destruct (Nat.eqb (found P s) 0); [discriminate|]. injection H as <-. split; reflexivity. }
  induction fuel as [|fuel IH]; intros j s r H; cbn [more] in H; destruct (Nat.ltb (found P s) n); try discriminate; eauto.
  destruct (store P n (length axis) (filter_DLA P col th axis (gen j)) s); [eauto|discriminate].
Qed.

Lemma least : forall (f : nat -> Prop), (forall m, f m \/ ~ f m) -> forall m, f m -> exists k, f k /\ forall j, (j < k)%nat -> ~ f j.
Proof.
  intros f Hd m. induction m as [m IH] using (well_founded_induction lt_wf). intros Hm.
  assert (G : forall i, (i <= m)%nat -> (exists j, (j < i)%nat /\ f j) \/ (forall j, (j < i)%nat -> ~ f j)).
  { induction i as [|i IHi]; intros Hi; [right; intros; lia|]. destruct (IHi ltac:(lia)) as [(j & Hj & Fj)|N]; [left; exists j; split; [lia|assumption]|].
    destruct (Hd i) as [Fi|Fi]; [left; exists i; split; [lia|assumption]|]. right. intros j Hj. destruct (Nat.eq_dec j i) as [->|]; [assumption|apply N; lia]. }
  destruct (G m ltac:(lia)) as [(j & Hj & Fj)|N]; [apply (IH j Hj Fj)|exists m; split; assumption].
Qed.

(** Whatever the batches: if the call returns and all axes are the same, the stored arrays fit together. *)
Lemma C22_consistent_aux : forall (P : Type) (col : P -> Z -> list R) fuel th n axis (gen : nat -> list P) a r,
  (1 <= n <= length axis)%nat -> (forall j, length (gen j) = length axis) -> (forall x, In x axis -> x = a) ->
  replace_not_DLA P col fuel th n axis gen = Done r ->
  new_numlos r = n /\ new_axis r = repeat a n /\
  exists positions, length positions = n /\ new_cofm r = map Some positions /\
    new_colden r = map (fun p => Some (col p a)) positions /\ Forall (fun p => passes th (rsum (col p a))) positions.
Proof.
  intros P col fuel th n axis gen a r Hn Hlen Ha H.
  assert (Ex : exists m, (n <= length (sel P col th axis gen m))%nat).
  { destruct (Classical_Prop.classic (exists m, (n <= length (sel P col th axis gen m))%nat)) as [|N]; [assumption|].
    rewrite replace_running in H; [discriminate|assumption|assumption|]. intros j.
    destruct (Nat.lt_ge_cases (length (sel P col th axis gen j)) n) as [|C]; [assumption|]. exfalso. apply N. exists j. assumption. }
  destruct Ex as (m0 & Hm0).
  destruct (least (fun m => (n <= length (sel P col th axis gen m))%nat) ltac:(intros m; cbn beta; lia) m0 Hm0) as (k & Hk & Hlt).
  destruct k as [|k]; [unfold sel in Hk; cbn in Hk; lia|].
  assert (Hj : forall j, (j <= k)%nat -> (length (sel P col th axis gen j) < n)%nat) by (intros j Hj; specialize (Hlt j ltac:(lia)); lia).
  assert (E : exists r', replace_not_DLA P col (k + fuel) th n axis gen = Done r' /\
    new_cofm r' = map (fun x => Some (fst x)) (firstn n (sel P col th axis gen (S k))) /\
    new_colden r' = map (fun x => Some (col (fst x) (snd x))) (firstn n (sel P col th axis gen (S k))) /\
    new_axis r' = firstn n axis /\ new_numlos r' = n /\
    new_discarded r' = ((length axis * S k - length (sel P col th axis gen (S k))) * n / length (sel P col th axis gen (S k)))%nat)
    by (apply replace_done; try assumption; lia).
  assert (Mono : forall f j s r1, more P col f th n axis gen j s = Done r1 -> forall d, more P col (d + f) th n axis gen j s = Done r1).
  { induction f as [|f IH]; intros j s r1 H1 d.
    - cbn [more] in H1. destruct d as [|d]; cbn [plus more]; destruct (Nat.ltb (found P s) n); try discriminate; assumption.
    - rewrite Nat.add_succ_r. cbn [more] in H1 |- *. destruct (Nat.ltb (found P s) n); [|assumption].
      destruct (store P n (length axis) (filter_DLA P col th axis (gen j)) s); [|discriminate]. apply IH. assumption. }
  destruct E as (r' & E & E1 & E2 & E3 & E4 & _). unfold replace_not_DLA in H, E.
  destruct (store P n (length axis) (filter_DLA P col th axis (gen 0%nat)) _) as [s0|]; [|discriminate].
  rewrite (Mono _ _ _ _ H k) in E. injection E as <-.
  split; [assumption|]. split.
  { rewrite E3. assert (Ax : axis = repeat a (length axis)).
    { clear - Ha. induction axis as [|x l IH]; [reflexivity|]. cbn. rewrite (Ha x (or_introl eq_refl)). f_equal. apply IH. intros; apply Ha; right; assumption. }
    rewrite Ax. clear - Hn. destruct Hn as (_ & Hn). revert Hn. generalize (length axis). intros m Hm. revert n Hm.
    induction m as [|m IH]; intros [|n] Hm; try reflexivity; [lia|]. cbn. f_equal. apply IH. lia. }
  exists (map fst (firstn n (sel P col th axis gen (S k)))). rewrite map_length, firstn_length.
  assert (Hsub : forall s, In s (firstn n (sel P col th axis gen (S k))) -> snd s = a /\ passes th (rsum (col (fst s) (snd s)))).
  { intros s Hs. assert (Hin : In s (sel P col th axis gen (S k))) by (rewrite <- (firstn_skipn n); apply in_or_app; left; assumption).
    unfold sel in Hin. apply filter_In in Hin. destruct Hin as (Hin & Hp). apply over_passes in Hp. split; [|assumption].
    apply in_flat_map in Hin. destruct Hin as (j & _ & Hin). destruct s as (p, x). apply in_combine_r in Hin. apply Ha. assumption. }
  split; [lia|]. split; [rewrite E1, map_map; reflexivity|]. split.
  { rewrite E2, map_map. apply map_ext_in. intros s Hs. destruct (Hsub s Hs) as (-> & _). reflexivity. }
  apply Forall_forall. intros p Hp. apply in_map_iff in Hp. destruct Hp as (s & <- & Hs). destruct (Hsub s Hs) as (Ea & Hp).
  rewrite Ea in Hp. assumption.
Qed.

(** ** Counterexamples *)

(** Axis 1 and 2; only sightlines along the second axis pass the threshold. *)
Lemma C22_axes_aux : exists (col : nat -> Z -> list R) axis (gen : nat -> list nat) r,
  replace_not_DLA nat col 0 (Above 1) 1 axis gen = Done r /\
  new_cofm r = [Some 7%nat] /\ new_axis r = [1%Z] /\ new_colden r = [Some (col 7%nat 2%Z)] /\ col 7%nat 2%Z <> col 7%nat 1%Z /\
  ~ passes (Above 1) (rsum (col 7%nat 1%Z)).
Proof.
  exists (fun p a => if Z.eqb a 2 then [2] else [0]), [1%Z; 2%Z], (fun _ => [5; 7]%nat). eexists. split.
  { unfold replace_not_DLA, filter_DLA. cbn [combine map filter fst snd Z.eqb Pos.eqb over rsum fold_right].
    destruct (Rlt_dec 1 (0 + 0)) as [C|_]; [lra|]. destruct (Rlt_dec 1 (2 + 0)) as [_|C]; [|lra].
    cbn. reflexivity. }
  cbn [new_cofm new_axis new_colden Z.eqb Pos.eqb]. split; [reflexivity|]. split; [reflexivity|]. split; [reflexivity|].
  split; [intros C; injection C; lra|]. cbn. lra.
Qed.

(** More sightlines wanted than a batch holds: the last one is lost without an error, or the call raises. *)
Lemma all_good : forall (P : Type) (col : P -> Z -> list R) th axis cofm, (forall p a, passes th (rsum (col p a))) ->
  filter_DLA P col th axis cofm = map (fun pa => (fst pa, col (fst pa) (snd pa))) (combine cofm axis).
Proof.
  intros P col th axis cofm H. unfold filter_DLA. induction (combine cofm axis) as [|s l IH]; [reflexivity|]. cbn [map filter snd].
  rewrite (proj2 (over_passes th _) (H _ _)), IH. reflexivity.
Qed.

Lemma C22_too_many_aux : forall (P : Type) (col : P -> Z -> list R) th axis (gen : nat -> list P) n fuel,
  (forall p a, passes th (rsum (col p a))) -> (forall j, length (gen j) = length axis) ->
  (2 <= length axis)%nat -> (length axis < n)%nat -> (1 <= fuel)%nat ->
  (n = S (length axis) /\ exists r, replace_not_DLA P col fuel th n axis gen = Done r /\
     new_numlos r = S (length axis) /\ length (new_cofm r) = length axis /\ length (new_colden r) = length axis) \/
  ((S (length axis) < n)%nat /\ replace_not_DLA P col fuel th n axis gen = Raises).
Proof.
  intros P col th axis gen n fuel Hp Hlen H2 Hn Hf.
  set (L := length axis) in *.
  assert (Lf : forall j, length (filter_DLA P col th axis (gen j)) = L).
  { intros j. rewrite all_good by assumption. rewrite map_length, combine_length, Hlen. unfold L. lia. }
  unfold replace_not_DLA. rewrite Hlen. fold L.
  set (s0 := {| found := 0; discarded := 0; top := 0; cofm_buf := firstn n (repeat None L); h1_buf := repeat None L |}).
  assert (E0 : exists cb hb, store P n L (filter_DLA P col th axis (gen 0%nat)) s0 =
     Some {| found := L; discarded := 0; top := L; cofm_buf := cb; h1_buf := hb |} /\ length cb = L /\ length hb = L).
  { unfold store. rewrite Lf. cbn [found discarded cofm_buf h1_buf s0]. rewrite Nat.add_0_l, Nat.min_r, Nat.sub_0_r, Nat.sub_diag by lia.
    rewrite !assign_exact; try (rewrite ?map_length, ?firstn_length, ?repeat_length, ?Lf; lia).
    eexists _, _. split; [reflexivity|]. rewrite !app_length, !map_length, !firstn_length, !skipn_length, ?firstn_length, !repeat_length, Lf. lia. }
  destruct E0 as (cb & hb & E0 & Lc & Lh). rewrite E0. destruct fuel as [|fuel]; [lia|]. cbn [more found].
  destruct (Nat.ltb_spec L n) as [_|]; [|lia]. unfold store. cbn [found discarded cofm_buf h1_buf]. rewrite Lf.
  set (t := min n (L + L)).
  destruct (Nat.eq_dec n (S L)) as [->|Hne].
  - left. split; [reflexivity|]. assert (Et : t = S L) by (unfold t; lia). rewrite Et. replace (S L - L)%nat with 1%nat by lia.
    pose proof (Lf 1%nat) as L1. destruct (filter_DLA P col th axis (gen 1%nat)) as [|x rest]; [cbn in L1; lia|].
    cbn [firstn map]. unfold assign_rows. rewrite Lc, Lh. replace (min (S L) L - min L L)%nat with 0%nat by lia.
    cbn [length Nat.eqb repeat map app].
    assert (X : forall s, found P s = (L + L)%nat -> more P col fuel th (S L) axis gen 2 s = finish P (S L) axis s).
    { intros s Es. destruct fuel; cbn [more]; rewrite Es; destruct (Nat.ltb_spec (L + L) (S L)); try lia; reflexivity. }
    rewrite X by reflexivity. unfold finish. cbn [found]. destruct (Nat.eqb_spec (L + L) 0); [lia|].
    eexists. split; [reflexivity|]. cbn [new_numlos new_cofm new_colden top cofm_buf h1_buf]. split; [reflexivity|].
    rewrite ?firstn_length, !app_length, !firstn_length, !skipn_length. lia.
  - right. split; [lia|].
    assert (Ht : (2 <= t - L)%nat) by (unfold t; lia).
    assert (As : forall (X : Type) (buf : list (option X)) src, length buf = L -> length src = (t - L)%nat -> assign_rows buf L t src = None).
    { intros X buf src Lb Ls. unfold assign_rows. rewrite Lb. replace (min t L - min L L)%nat with 0%nat by lia. rewrite Ls.
      destruct (Nat.eqb_spec (t - L) 0); [lia|]. destruct src as [|x [|y src]]; try reflexivity. cbn in Ls. lia. }
    rewrite As; [reflexivity|assumption|]. rewrite map_length, firstn_length, Lf. unfold t. lia.
Qed.

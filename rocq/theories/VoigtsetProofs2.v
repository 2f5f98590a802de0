(** Merging, and the set of spectra. *)
From Coq Require Import ZArith List Reals Arith Bool Lia Lra Permutation Sorted.
From Verif Require Import AbsorptionSpec FilterModel FitModel FitProofs2 SystemsModel VoigtsetModel VoigtsetSpec VoigtsetProofs.
Import ListNotations.
Local Open Scope R_scope.

Lemma rargmin_from_spec : forall l i best v m w, rargmin_from l i best v = (m, w) ->
  w <= v /\ (forall x, In x l -> w <= x) /\ ((m = best /\ w = v) \/ (i <= m < i + length l)%nat /\ nth (m - i) l 0 = w).
Proof.
  induction l as [|x l IH]; intros i best v m w E; cbn [rargmin_from] in E.
  - injection E as <- <-. repeat split; [lra|intros x []|now left].
  - destruct (Rlt_dec x v) as [L|L]; apply IH in E; destruct E as (A & B & C); (split; [lra|]); (split; [intros y [<-|Y]; [lra|now apply B]|]).
    + right. destruct C as [(-> & ->)|(C & D)]; cbn [length]; [split; [lia|]; now rewrite Nat.sub_diag|]. split; [lia|].
      replace (m - i)%nat with (S (m - S i)) by lia. exact D.
    + destruct C as [C|(C & D)]; [now left|]. right. cbn [length]. split; [lia|]. replace (m - i)%nat with (S (m - S i)) by lia. exact D.
Qed.

Lemma rargmin_spec : forall l m w, l <> [] -> rargmin l = (m, w) -> (m < length l)%nat /\ nth m l 0 = w /\ forall i, (i < length l)%nat -> w <= nth i l 0.
Proof.
  intros [|x l] m w N E; [congruence|]. cbn [rargmin] in E. apply rargmin_from_spec in E. destruct E as (A & B & C). split; [|split].
  - cbn [length]. destruct C as [(-> & _)|(C & _)]; lia.
  - destruct C as [(-> & ->)|(C & D)]; [reflexivity|]. destruct m; [lia|]. cbn [nth]. replace m with (S m - 1)%nat by lia. exact D.
  - intros [|i] I; [exact A|]. cbn [nth]. apply B. apply nth_In. cbn [length] in I. lia.
Qed.

Lemma update_split : forall {A} (l : list A) i d f, (i < length l)%nat -> update l i f = firstn i l ++ f (nth i l d) :: skipn (S i) l.
Proof.
  intros A l. unfold update. induction l as [|x l IH]; intros [|i] d f L; cbn [length] in L; try lia; [reflexivity|].
  cbn [firstn skipn nth app]. f_equal. apply (IH i d f). lia.
Qed.

Lemma update_length : forall {A} (l : list A) i f, length (update l i f) = length l.
Proof.
  intros A l i f. unfold update. rewrite app_length, firstn_length. pose proof (skipn_length i l) as S. destruct (skipn i l); cbn [length] in *; lia.
Qed.

Lemma update_nth : forall {A} (l : list A) i j d f, nth j (update l i f) d = if Nat.eqb i j then (if Nat.ltb i (length l) then f (nth i l d) else d) else nth j l d.
Proof.
  intros A l. unfold update. induction l as [|x l IH]; intros [|i] [|j] d f; try reflexivity.
  - cbn [firstn skipn app nth length]. destruct (Nat.eqb (S i) (S j)) eqn:E; reflexivity.
  - cbn [firstn skipn app nth length]. rewrite IH. reflexivity.
Qed.

Lemma delete_length : forall {A} (l : list A) i, (i < length l)%nat -> length (np_delete l i) = (length l - 1)%nat.
Proof. intros A l i L. unfold np_delete. rewrite app_length, firstn_length, skipn_length. lia. Qed.

Lemma rsum_split : forall (l m : list R), rsum (l ++ m) = rsum l + rsum m.
Proof. intros l m. unfold rsum. induction l as [|x l IH]; cbn [app fold_right]; [ring|]. rewrite IH. ring. Qed.

Lemma split_at : forall {A} (l : list A) i d, (i < length l)%nat -> l = firstn i l ++ nth i l d :: skipn (S i) l.
Proof. intros A l. induction l as [|x l IH]; intros [|i] d L; cbn [length] in L; try lia; [reflexivity|]. cbn [firstn app nth skipn]. f_equal. apply IH. lia. Qed.

Lemma rsum_delete : forall l i, (i < length l)%nat -> rsum (np_delete l i) = rsum l - nth i l 0.
Proof.
  intros l i L. unfold np_delete. rewrite (split_at l i 0 L) at 3. rewrite !rsum_split. unfold rsum at 4. cbn [fold_right].
  change (fold_right Rplus 0 (skipn (S i) l)) with (rsum (skipn (S i) l)). ring.
Qed.

Lemma rsum_update : forall l i f, (i < length l)%nat -> rsum (update l i f) = rsum l - nth i l 0 + f (nth i l 0).
Proof.
  intros l i f L. rewrite (update_split l i 0 f L). rewrite (split_at l i 0 L) at 4. rewrite !rsum_split. unfold rsum at 2 4. cbn [fold_right].
  change (fold_right Rplus 0 (skipn (S i) l)) with (rsum (skipn (S i) l)). ring.
Qed.

Lemma rsubtract_length : forall a b, length a = length b -> length (rsubtract a b) = length a.
Proof. intros a b L. unfold rsubtract. rewrite map_length, combine_length. lia. Qed.

Lemma rsubtract_nth : forall a b i, length a = length b -> nth i (rsubtract a b) 0 = nth i a 0 - nth i b 0.
Proof.
  unfold rsubtract. induction a as [|x a IH]; intros [|y b] i L; try discriminate; [destruct i; cbn; ring|].
  destruct i; [reflexivity|]. cbn [combine map nth]. apply IH. now injection L.
Qed.

(** The loop. *)
Lemma merge_loop_spec : forall fuel w close k colden pos maxpos minpos, (0 < k <= fuel)%nat ->
  length colden = k -> length pos = k -> length maxpos = k -> length minpos = k ->
  match merge_loop fuel w close colden pos maxpos minpos with
  | Running => False
  | Raises => True
  | Done (c, p) => length c = length p /\ (length c <= k)%nat /\
      (length c = k <-> forall i, (i < k)%nat -> close <= nth i minpos 0 - nth i maxpos 0) /\
      (length c = k -> c = colden) /\
      ((2 <= k)%nat -> (1 <= length c)%nat /\ rsum c = rsum colden)
  end.
Proof.
  induction fuel as [|fuel IH]; intros w close k colden pos maxpos minpos Hk Lc Lp Lx Ln; [lia|].
  cbn [merge_loop]. assert (Ld : length (rsubtract minpos maxpos) = k) by (rewrite rsubtract_length; lia).
  destruct (rargmin (rsubtract minpos maxpos)) as [minn least] eqn:E.
  assert (Nz : rsubtract minpos maxpos <> []) by (intros Z; rewrite Z in Ld; cbn in Ld; lia).
  destruct (rargmin_spec _ _ _ Nz E) as (A & B & C). rewrite Ld in *. rewrite rsubtract_nth in B by lia.
  destruct (Rlt_dec least close) as [L|L].
  - set (is_last := Nat.eqb minn (k - 1)). set (dst := if is_last then 0%nat else S minn).
    set (pos1 := update pos dst _). set (colden1 := update colden dst _).
    assert (D : (dst < k)%nat /\ ((2 <= k)%nat -> dst <> minn)).
    { unfold dst, is_last. destruct (Nat.eqb_spec minn (k - 1)); lia. }
    assert (L1 : length (np_delete pos1 minn) = (k - 1)%nat) by (rewrite delete_length; unfold pos1; rewrite update_length; lia).
    assert (L2 : length (np_delete colden1 minn) = (k - 1)%nat) by (rewrite delete_length; unfold colden1; rewrite update_length; lia).
    assert (L3 : length (np_delete maxpos minn) = (k - 1)%nat) by (rewrite delete_length; lia).
    assert (L4 : length (np_delete minpos minn) = (k - 1)%nat) by (rewrite delete_length; lia).
    assert (Sm : (2 <= k)%nat -> rsum (np_delete colden1 minn) = rsum colden).
    { intros K. rewrite rsum_delete by (unfold colden1; rewrite update_length; lia). unfold colden1. rewrite rsum_update by lia. rewrite update_nth.
      destruct (Nat.eqb_spec dst minn) as [F|F]; [exfalso; now apply D|]. ring. }
    assert (Bad : ~ forall i, (i < k)%nat -> close <= nth i minpos 0 - nth i maxpos 0).
    { intros F. specialize (F minn A). lra. }
    rewrite L1. destruct (Nat.ltb_spec (k - 1) 2) as [K|K].
    + split; [lia|]. split; [lia|]. split; [split; [lia|intros F; contradiction]|]. split; [lia|]. intros K2. split; [lia|now apply Sm].
    + destruct (forallb _ _); [|exact I]. specialize (IH w close (k - 1)%nat _ _ _ _ ltac:(lia) L2 L1 L3 L4).
      destruct (merge_loop fuel w close _ _ _ _) as [[c p]| |]; [|exact I|exact IH].
      destruct IH as (I1 & I2 & I3 & I4 & I5). split; [exact I1|]. split; [lia|]. split; [split; [lia|intros F; contradiction]|]. split; [lia|].
      intros K2. destruct (I5 K) as (I6 & I7). split; [exact I6|]. rewrite I7. now apply Sm.
  - split; [lia|]. split; [lia|]. split; [|split; [reflexivity|intros; split; [lia|reflexivity]]]. split; [|lia]. intros _ i Hi.
    specialize (C i Hi). rewrite rsubtract_nth in C by lia. lra.
Qed.

(** The gap behind the i-th of some positions. *)
Definition gap (w : R) (pos : list R) (i : nat) : R :=
  (if Nat.eqb (S i) (length pos) then nth 0 pos 0 + w else nth (S i) pos 0) - nth i pos 0.

Lemma rolled_nth : forall x (t : list R) i, (i < length (x :: t))%nat -> nth i (t ++ [x]) 0 = if Nat.eqb (S i) (length (x :: t)) then x else nth (S i) (x :: t) 0.
Proof.
  intros x t i L. cbn [length] in *. destruct (Nat.eqb_spec (S i) (S (length t))) as [E|E].
  - injection E as ->. rewrite app_nth2, Nat.sub_diag by lia. reflexivity.
  - rewrite app_nth1 by lia. reflexivity.
Qed.

Lemma merge_spec : forall w close colden pos, length colden = length pos ->
  match merge w close colden pos with
  | Running => False
  | Raises => True
  | Done (c, p) => pos <> [] /\ (length c <= length pos)%nat /\
      (forall i, (i < length pos)%nat -> 0 < gap w pos i) /\
      (length c = length pos <-> forall i, (i < length pos)%nat -> close <= gap w pos i) /\
      (length c = length pos -> c = colden) /\
      ((2 <= length pos)%nat -> (1 <= length c)%nat /\ rsum c = rsum colden)
  end.
Proof.
  intros w close colden pos Lc. unfold merge. destruct pos as [|x t]; [exact I|]. set (pos := x :: t) in *.
  set (maxpos := update pos (length pos - 1) (fun p => p - w)).
  assert (Lx : length maxpos = length pos) by apply update_length.
  assert (Ln : length (t ++ [x]) = length pos) by (rewrite app_length; cbn; lia).
  assert (Kp : (0 < length pos)%nat) by (cbn; lia).
  assert (G : forall i, (i < length pos)%nat -> nth i (t ++ [x]) 0 - nth i maxpos 0 = gap w pos i).
  { intros i I. rewrite rolled_nth by exact I. unfold maxpos. rewrite update_nth. unfold gap. fold pos. change (nth 0 pos 0) with x.
    destruct (Nat.eqb_spec (S i) (length pos)) as [E|E]; destruct (Nat.eqb_spec (length pos - 1) i) as [F|F]; try lia.
    - destruct (Nat.ltb_spec (length pos - 1) (length pos)); [|lia]. rewrite F. ring.
    - ring. }
  destruct (forallb (fun d => rltb 0 d) (rsubtract (t ++ [x]) maxpos)) eqn:F; [|exact I].
  pose proof (merge_loop_spec (length pos) w close (length pos) colden pos maxpos (t ++ [x]) ltac:(lia) Lc eq_refl Lx Ln) as H.
  destruct (merge_loop _ _ _ _ _ _ _) as [[c p]| |]; [|exact I|exact H].
  destruct H as (_ & H2 & H3 & H4 & H5). split; [discriminate|]. split; [exact H2|]. split; [|split; [|split; [exact H4|exact H5]]].
  - intros i I. rewrite <- G by exact I. rewrite <- rsubtract_nth by lia. rewrite forallb_forall in F.
    specialize (F (nth i (rsubtract (t ++ [x]) maxpos) 0)). cbv beta in F. unfold rltb in F.
    match type of F with In ?a ?b -> _ => assert (In a b) by (apply nth_In; rewrite rsubtract_length; lia) end.
    specialize (F H). destruct (Rlt_dec 0 _) as [P|P] in F; [exact P|discriminate].
  - rewrite H3. split; intros Q i I; specialize (Q i I); rewrite G in * by exact I; exact Q.
Qed.

Lemma gap_one : forall w x, gap w [x] 0 = w.
Proof. intros. unfold gap. cbn. ring. Qed.

Lemma apart_gap : forall w close cs, apart w close cs <-> forall i, (i < length (map c_mean cs))%nat -> close <= gap w (map c_mean cs) i.
Proof.
  intros w close cs. unfold apart, gap. rewrite map_length.
  assert (N : forall j, nth j (map c_mean cs) 0 = c_mean (nth j cs (mkComp 0 0 0))) by (intros; change 0 with (c_mean (mkComp 0 0 0)) at 1; apply map_nth).
  split; intros H i I; specialize (H i I); cbv zeta in *; rewrite ?N in *; exact H.
Qed.

Section Spectra.
Context (dvbin unit : R) (fnorm : R -> R) (fit : list R -> option (list comp)).

Definition col (c : comp) : R := get_column_density unit fnorm (Rabs (c_width c)) (c_amp c).

Lemma helper_spec : forall verbose close tau n b, helper dvbin unit fnorm fit verbose close tau = Some (n, b) ->
  let w := (INR (length tau) - 1) * dvbin in
  exists cs sorted, fit tau = Some cs /\ in_order cs sorted /\ b = map (fun c => Rabs (c_width c)) sorted /\ sorted <> [] /\
    (length n <= length b)%nat /\ (length n = length b <-> apart w close sorted) /\ (length n = length b -> n = map col sorted) /\
    (close <= 0 -> apart w close sorted) /\
    ((2 <= length sorted)%nat -> n <> [] /\ rsum n = rsum (map col sorted)) /\ (verbose = true -> n <> []).
Proof.
  intros verbose close tau n b. unfold helper. destruct (fit tau) as [cs|]; [|discriminate]. cbv zeta.
  pose proof (C63_pairs_aux unit fnorm cs) as P. cbv zeta in P. destruct P as (sorted & Pm & So & P).
  destruct (systems_start unit fnorm _) as [[colden pos] s]. destruct P as (-> & -> & Eb).
  set (w := (INR (length tau) - 1) * dvbin).
  pose proof (merge_spec w close (map (fun c => get_column_density unit fnorm (Rabs (c_width c)) (c_amp c)) sorted) (map c_mean sorted) ltac:(now rewrite !map_length)) as M.
  destruct (merge w close _ _) as [[c p]| |]; try discriminate. destruct M as (M1 & M2 & M3 & M4 & M5 & M6).
  assert (Lb : length (get_b_params s) = length sorted) by (rewrite Eb, map_length; reflexivity). rewrite map_length in *.
  assert (G : Some (c, get_b_params s) = Some (n, b) -> (verbose = true -> c <> []) -> exists cs0 sorted0 : list comp, Some cs = Some cs0 /\ in_order cs0 sorted0 /\
    b = map (fun c0 => Rabs (c_width c0)) sorted0 /\ sorted0 <> [] /\ (length n <= length b)%nat /\
    (length n = length b <-> apart w close sorted0) /\ (length n = length b -> n = map col sorted0) /\ (close <= 0 -> apart w close sorted0) /\
    ((2 <= length sorted0)%nat -> n <> [] /\ rsum n = rsum (map col sorted0)) /\ (verbose = true -> n <> [])).
  { intros E V. injection E as <- <-. exists cs, sorted. split; [reflexivity|]. split; [now split|]. split; [exact Eb|].
    split; [intros Z; subst sorted; now apply M1|]. rewrite Lb. split; [exact M2|].
    split; [rewrite apart_gap; rewrite map_length; exact M4|]. split; [exact M5|]. split; [|split; [|exact V]].
    - intros C. apply apart_gap. rewrite map_length. intros i I. specialize (M3 i I). lra.
    - intros K. destruct (M6 K) as (A & B). split; [|exact B]. intros Z. rewrite Z in A. cbn in A. lia. }
  destruct c as [|c0 c]; [destruct verbose; [discriminate|]|]; intros E; apply G; try exact E; intros; discriminate.
Qed.

(** Saying more does not change the result, unless there is nothing to say. *)
Lemma helper_verbose : forall close tau, close <= (INR (length tau) - 1) * dvbin ->
  helper dvbin unit fnorm fit true close tau = helper dvbin unit fnorm fit false close tau.
Proof.
  intros close tau C. pose proof (helper_spec false close tau) as H. unfold helper in *. destruct (fit tau) as [cs|]; [|reflexivity].
  destruct (systems_start unit fnorm _) as [[colden pos] s]. destruct (merge _ close colden pos) as [[c p]| |]; try reflexivity.
  destruct c as [|c0 c]; [|reflexivity]. exfalso. destruct (H [] (get_b_params s) eq_refl) as (cs0 & sorted & _ & _ & Eb & Nz & _ & Ap & _ & _ & K & _).
  destruct sorted as [|x [|y sorted]]; [congruence| |destruct K as (K & _); [cbn; lia|congruence]].
  rewrite Eb in Ap. cbn [length map] in Ap. assert (0%nat = 1%nat); [|discriminate]. apply Ap. intros i I. cbn [length] in *. assert (i = 0%nat) as -> by lia. cbn. lra.
Qed.

Lemma gives_spec : forall workers order verbose close taus, (0 < workers)%nat -> schedule workers (length taus) order ->
  get_voigt_systems dvbin unit fnorm fit workers order verbose close taus =
  match all_of (map (helper dvbin unit fnorm fit verbose close) taus) with
  | None | Some [] => Fails
  | Some rs => Gives (concat (map fst rs)) (concat (map snd rs))
  end.
Proof.
  intros workers order verbose close taus W S. unfold get_voigt_systems. rewrite (pool_order _ _ _ _ W S).
  destruct (all_of (map _ taus)) as [rs|]; [|reflexivity].
  assert (E : all_of (map Some rs) = Some rs) by (now apply all_some). rewrite E. reflexivity.
Qed.

(** The result is put together from those of the single spectra. *)
Theorem C124_order_aux : forall workers order verbose close taus, (0 < workers)%nat -> schedule workers (length taus) order -> taus <> [] ->
  (forall ns bs, Forall2 (fun tau r => forall workers' order', (0 < workers')%nat -> schedule workers' 1 order' ->
      get_voigt_systems dvbin unit fnorm fit workers' order' verbose close [tau] = Gives (fst r) (snd r)) taus (combine ns bs) -> length ns = length bs ->
    get_voigt_systems dvbin unit fnorm fit workers order verbose close taus = Gives (concat ns) (concat bs)) /\
  (forall tau workers' order', In tau taus -> (0 < workers')%nat -> schedule workers' 1 order' ->
    get_voigt_systems dvbin unit fnorm fit workers' order' verbose close [tau] = Fails ->
    get_voigt_systems dvbin unit fnorm fit workers order verbose close taus = Fails).
Proof.
  intros workers order verbose close taus W S N.
  assert (One : forall tau workers' order', (0 < workers')%nat -> schedule workers' 1 order' ->
    get_voigt_systems dvbin unit fnorm fit workers' order' verbose close [tau] =
    match helper dvbin unit fnorm fit verbose close tau with Some r => Gives (fst r) (snd r) | None => Fails end).
  { intros tau workers' order' W' S'. rewrite gives_spec by assumption. cbn [map all_of]. destruct (helper _ _ _ _ _ _ tau) as [r|]; [|reflexivity].
    cbn [map concat]. now rewrite !app_nil_r. }
  split.
  - intros ns bs F L. rewrite gives_spec by assumption.
    assert (E : map (helper dvbin unit fnorm fit verbose close) taus = map Some (combine ns bs)).
    { clear N S L. induction F as [|tau r taus rs H F IH]; [reflexivity|]. cbn [map]. f_equal; [|exact IH].
      assert (S1 : schedule 1 1 [0%nat]) by (unfold schedule; apply Permutation_refl).
      specialize (H 1%nat [0%nat] ltac:(lia) S1). rewrite One in H; [|lia|exact S1].
      destruct (helper _ _ _ _ _ _ tau) as [[a b]|]; [|discriminate]. cbn [fst snd] in H. injection H as -> ->. destruct r; reflexivity. }
    rewrite (proj2 (all_some _ _) E).
    assert (Z : combine ns bs <> []) by (intros Z; rewrite Z in E; destruct taus; [congruence|discriminate]).
    assert (M1 : forall (a b : list (list R)), length a = length b -> map fst (combine a b) = a /\ map snd (combine a b) = b).
    { induction a as [|x a IH]; intros [|y b] Lab; try discriminate; [now split|]. injection Lab as Lab. destruct (IH b Lab) as (A & B).
      cbn [combine map fst snd]. now rewrite A, B. }
    destruct (M1 ns bs L) as (E1 & E2). destruct (combine ns bs) as [|p l]; [congruence|]. now rewrite E1, E2.
  - intros tau workers' order' I W' S' H. rewrite One in H by assumption. rewrite gives_spec by assumption.
    destruct (helper _ _ _ _ _ _ tau) as [r|] eqn:E; [discriminate|].
    assert (all_of (map (helper dvbin unit fnorm fit verbose close) taus) = None) as ->; [|reflexivity].
    apply all_none. rewrite <- E. now apply in_map.
Qed.

Lemma forall2_map : forall {A B C} (P : A -> C -> Prop) (f : A -> option B) (g : B -> C) xs rs, map f xs = map Some rs ->
  (forall x r, f x = Some r -> P x (g r)) -> Forall2 P xs (map g rs).
Proof.
  intros A B C P f g xs. induction xs as [|x xs IH]; intros [|r rs] E H; try discriminate; [constructor|]. cbn [map] in *. injection E as E0 E.
  constructor; [now apply H|now apply IH].
Qed.

Lemma gives_list : forall close verbose taus rs, map (helper dvbin unit fnorm fit verbose close) taus = map Some rs ->
  exists comps, Forall2 (fun tau sorted => exists cs, fit tau = Some cs /\ in_order cs sorted /\ sorted <> []) taus comps /\
    concat (map snd rs) = map (fun c => Rabs (c_width c)) (concat comps) /\
    (length (concat (map fst rs)) <= length (concat (map snd rs)))%nat /\
    (length (concat (map fst rs)) = length (concat (map snd rs)) <-> Forall2 (fun tau sorted => apart ((INR (length tau) - 1) * dvbin) close sorted) taus comps) /\
    (length (concat (map fst rs)) = length (concat (map snd rs)) -> concat (map fst rs) = map col (concat comps)) /\
    (close <= 0 -> length (concat (map fst rs)) = length (concat (map snd rs))) /\
    (Forall2 (fun tau sorted => (2 <= length sorted)%nat \/ close <= (INR (length tau) - 1) * dvbin) taus comps ->
      rsum (concat (map fst rs)) = rsum (map col (concat comps))).
Proof.
  intros close verbose taus. induction taus as [|tau taus IH]; intros [|[n b] rs] E; try discriminate.
  - exists []. repeat split; try constructor; try reflexivity.
  - cbn [map] in E. injection E as E0 E. destruct (IH rs E) as (comps & F & Eb & Le & Eq & Ec & Cl & Su).
    destruct (helper_spec verbose close tau n b E0) as (cs & sorted & Ef & Io & -> & Nz & Ln & Ea & En & C0 & K & _).
    exists (sorted :: comps). cbn [map concat fst snd]. rewrite !app_length. split; [constructor; [now exists cs|exact F]|].
    split; [rewrite map_app, Eb; reflexivity|]. split; [lia|].
    assert (Both : (length n + length (concat (map fst rs)) = length (map (fun c => Rabs (c_width c)) sorted) + length (concat (map snd rs)))%nat <->
      length n = length (map (fun c => Rabs (c_width c)) sorted) /\ length (concat (map fst rs)) = length (concat (map snd rs))) by lia.
    split; [|split; [|split]].
    + rewrite Both, Ea, Eq. split; [intros (A & B); now constructor|]. intros H. inversion H; subst. now split.
    + rewrite Both. intros (A & B). rewrite map_app. f_equal; [now apply En|now apply Ec].
    + intros C. rewrite Both. split; [apply Ea; now apply C0|now apply Cl].
    + intros H. inversion H as [|? ? ? ? H1 H2]; subst. rewrite map_app, !rsum_split. f_equal; [|now apply Su].
      destruct sorted as [|x [|y sorted]]; [congruence| |now destruct (K ltac:(cbn; lia))].
      destruct H1 as [H1|H1]; [cbn in H1; lia|]. f_equal. apply En. apply Ea. intros i I. cbn [length] in *. assert (i = 0%nat) as -> by lia. cbn. lra.
Qed.

Theorem C124_pairs_aux : forall workers order verbose close taus n b, (0 < workers)%nat -> schedule workers (length taus) order ->
  get_voigt_systems dvbin unit fnorm fit workers order verbose close taus = Gives n b ->
  exists comps, Forall2 (fun tau sorted => exists cs, fit tau = Some cs /\ in_order cs sorted /\ sorted <> []) taus comps /\
    b = map (fun c => Rabs (c_width c)) (concat comps) /\
    (length n <= length b)%nat /\
    (length n = length b <-> Forall2 (fun tau sorted => apart ((INR (length tau) - 1) * dvbin) close sorted) taus comps) /\
    (length n = length b -> n = map (fun c => get_column_density unit fnorm (Rabs (c_width c)) (c_amp c)) (concat comps)) /\
    (close <= 0 -> length n = length b) /\
    (Forall2 (fun tau sorted => (2 <= length sorted)%nat \/ close <= (INR (length tau) - 1) * dvbin) taus comps ->
      rsum n = rsum (map (fun c => get_column_density unit fnorm (Rabs (c_width c)) (c_amp c)) (concat comps))).
Proof.
  intros workers order verbose close taus n b W S. rewrite gives_spec by assumption. destruct (all_of _) as [rs|] eqn:E; [|discriminate].
  apply all_some in E. destruct rs as [|r rs]; [discriminate|]. intros G. injection G as <- <-. exact (gives_list close verbose taus (r :: rs) E).
Qed.

Theorem C124_verbose_aux : forall workers order close taus, (0 < workers)%nat -> schedule workers (length taus) order ->
  (forall tau, In tau taus -> close <= (INR (length tau) - 1) * dvbin) ->
  get_voigt_systems dvbin unit fnorm fit workers order true close taus = get_voigt_systems dvbin unit fnorm fit workers order false close taus.
Proof.
  intros workers order close taus W S C. rewrite !gives_spec by assumption.
  assert (map (helper dvbin unit fnorm fit true close) taus = map (helper dvbin unit fnorm fit false close) taus) as ->; [|reflexivity].
  apply map_ext_in. intros tau I. apply helper_verbose. now apply C.
Qed.

Theorem C124_merged_aux : forall workers order verbose close taus n b tau cs i, (0 < workers)%nat -> schedule workers (length taus) order ->
  get_voigt_systems dvbin unit fnorm fit workers order verbose close taus = Gives n b ->
  In tau taus -> fit tau = Some cs -> (forall sorted, in_order cs sorted -> ~ apart ((INR (length tau) - 1) * dvbin) close sorted) -> i = length n ->
  (i < length b)%nat.
Proof.
  intros workers order verbose close taus n b tau cs i W S G I F A ->.
  destruct (C124_pairs_aux workers order verbose close taus n b W S G) as (comps & C & _ & L & E & _).
  destruct (Nat.eq_dec (length n) (length b)) as [Q|Q]; [|lia]. exfalso. apply E in Q. clear -I F A C Q. revert comps C Q.
  induction taus as [|t taus IH]; intros comps C Q; [destruct I|]. inversion C as [|? sorted ? ? (cs' & F' & O & _) C']; subst. inversion Q; subst.
  destruct I as [->|I]; [|eapply IH; eassumption]. assert (cs' = cs) as -> by congruence. now apply (A sorted).
Qed.

Theorem C124_vanish_aux : forall workers order close tau c, (0 < workers)%nat -> schedule workers 1 order -> fit tau = Some [c] ->
  0 < (INR (length tau) - 1) * dvbin < close ->
  get_voigt_systems dvbin unit fnorm fit workers order false close [tau] = Gives [] [Rabs (c_width c)] /\
  get_voigt_systems dvbin unit fnorm fit workers order true close [tau] = Fails.
Proof.
  intros workers order close tau c W S F C. rewrite !gives_spec by assumption. cbn [map].
  assert (H : forall verbose : bool, helper dvbin unit fnorm fit verbose close tau = if verbose then None else Some ([], [Rabs (c_width c)])).
  { intros verbose. unfold helper. rewrite F. cbn [map systems_start sort_components f_widths f_amps f_means combine fold_right insert_at fst snd].
    unfold merge. cbn [length Nat.sub update firstn skipn app rsubtract combine map fst snd forallb].
    unfold rltb. destruct (Rlt_dec 0 (c_mean c - (c_mean c - (INR (length tau) - 1) * dvbin))) as [_|N]; [|exfalso; apply N; lra]. cbn [andb].
    cbn [merge_loop rsubtract combine map fst snd rargmin rargmin_from].
    destruct (Rlt_dec (c_mean c - (c_mean c - (INR (length tau) - 1) * dvbin)) close) as [_|N]; [|exfalso; apply N; lra].
    cbn [length Nat.sub Nat.eqb update firstn skipn app np_delete Nat.ltb Nat.leb get_b_params f_widths map]. destruct verbose; reflexivity. }
  rewrite !H. split; reflexivity.
Qed.

Theorem C124_waits_aux : forall workers order rest verbose close taus, (0 < workers)%nat -> schedule workers (length taus) (order ++ rest) -> rest <> [] ->
  get_voigt_systems dvbin unit fnorm fit workers order verbose close taus = Waits.
Proof. intros workers order rest verbose close taus W S N. unfold get_voigt_systems. now rewrite (pool_waits _ _ _ _ _ W S N). Qed.
End Spectra.

(** A spectrum without absorption. *)
Lemma argmax_from_in : forall l i best v, In (snd (argmax_from l i best v)) (v :: l).
Proof.
  induction l as [|x l IH]; intros i best v; cbn [argmax_from]; [now left|]. destruct (Rlt_dec v x).
  - right. apply IH.
  - destruct (IH (S i) best v) as [E|E]; [now left|]. right. now right.
Qed.

Lemma argmax_in : forall l m v, argmax l = Some (m, v) -> In v l.
Proof. intros [|x l] m v E; [discriminate|]. cbn [argmax] in E. injection E as E. pose proof (argmax_from_in l 1 0 x) as H. rewrite E in H. exact H. Qed.

Theorem C124_blank_aux : forall dvbin unit fnorm voigt bounded simplex fit workers order verbose close taus tau,
  (0 < workers)%nat -> schedule workers (length taus) order -> fits dvbin voigt bounded simplex fit ->
  In tau taus -> (forall x, In x tau -> x <= 0.0001) ->
  get_voigt_systems dvbin unit fnorm fit workers order verbose close taus = Fails.
Proof.
  intros dvbin unit fnorm voigt bounded simplex fit workers order verbose close taus tau W S F I B. rewrite gives_spec by assumption.
  assert (H : helper dvbin unit fnorm fit verbose close tau = None).
  { specialize (F tau). assert (D : do_fit dvbin voigt bounded (simplex tau) (length tau) 0.0001 0.95 4 tau = Done [] \/
      do_fit dvbin voigt bounded (simplex tau) (length tau) 0.0001 0.95 4 tau = Raises).
    { unfold do_fit, search, real_tol. destruct (argmax tau) as [[m v]|] eqn:A; [|now right].
      assert (T : 0.0001 <= 0.0001 * Rmax 1 v) by (pose proof (Rmax_l 1 v); lra).
      set (mask := where_ _ tau).
      assert (E : find_peaks dvbin voigt bounded (length tau) (0.0001 * Rmax 1 v) 4 tau mask [] = Done []).
      { assert (Q : forall q, max_masked tau mask = Some q -> q <= 0.0001).
        { unfold max_masked. intros q. destruct (argmax (map (fun i => nth i tau 0) mask)) as [[m' v']|] eqn:A'; [|discriminate]. intros Eq. injection Eq as ->.
          apply argmax_in in A'. apply in_map_iff in A'. destruct A' as (j & <- & J). unfold mask, where_ in J. apply filter_In in J.
          destruct J as (J & _). apply in_seq in J. apply B. apply nth_In. lia. }
        destruct (length tau); cbn [find_peaks]; destruct (max_masked tau mask) as [q|]; try reflexivity;
          destruct (Rlt_dec _ q) as [L|L]; try reflexivity; exfalso; specialize (Q q eq_refl); lra. }
      rewrite E. unfold refit. cbn [length Nat.sub Nat.min refit_loop]. destruct (simplex tau (inputs 2 [])) as [res|]; [|now right].
      cbn [Nat.mul]. destruct (Nat.eqb _ 0); [left; reflexivity|now right]. }
    unfold helper. destruct D as [D|D]; rewrite D in F; rewrite F; reflexivity. }
  assert (all_of (map (helper dvbin unit fnorm fit verbose close) taus) = None) as ->; [|reflexivity].
  apply all_none. rewrite <- H. now apply in_map.
Qed.

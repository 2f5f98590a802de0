(** Proofs about halo catalogues (C76). *)
From Coq Require Import Ascii String List Bool Arith Lia Permutation Sorted.
From Verif Require Import OpenModel OpenSpec OpenProofs CatalogModel CatalogSpec.
Import ListNotations.
Local Open Scope string_scope.

Section Cat.
Context {row : Type}.
Implicit Types (fs : list (file row)) (f : file row) (d : dset).

Lemma single_ok : forall f d name w, f_good f = true ->
  exists c, get_single_file_array f d name (Some w) = Ok c /\ c_rows c = rows_of f d name /\
    (dataset f d name = Some c \/ dataset f d name = None /\ c = mkCol false w []).
Proof.
  intros f d name w G. unfold get_single_file_array, rows_of. rewrite G. destruct (dataset f d name) as [c|].
  - exists c. auto.
  - exists (mkCol false w []). auto.
Qed.

Lemma all_files_ok : forall fs d name w, uniform fs d name w ->
  exists cs, all_files fs d name w = Ok cs /\ map c_rows cs = map (fun f => rows_of f d name) fs /\
    Forall (fun c => c_width c = w) cs /\ (forallb c_int cs = true <-> all_integer fs d name).
Proof.
  intros fs d name w. induction fs as [|f fs IH]; intros U.
  - exists []. repeat split; auto. intros _ f [].
  - destruct IH as [cs [E [R [W I]]]]; [intros f' H; apply U; right; auto|].
    destruct (U f (or_introl eq_refl)) as [G WW].
    destruct (single_ok f d name w G) as [c [S1 [S2 S3]]].
    exists (c :: cs). cbn [all_files]. rewrite S1. cbn [bind]. rewrite E. cbn [bind]. split; [reflexivity|].
    split; [cbn [map]; congruence|]. split.
    + constructor; auto. destruct S3 as [S3|[_ ->]]; [apply WW; auto|reflexivity].
    + cbn [forallb]. rewrite andb_true_iff, I. split.
      * intros [A B] f' [<-|H]; [|apply B; auto]. destruct S3 as [S3|[_ ->]]; [exists c; auto|discriminate].
      * intros A. split; [|intros f' H; apply A; right; auto].
        destruct (A f (or_introl eq_refl)) as [c' [Q1 Q2]]. destruct S3 as [S3|[S3 _]]; congruence.
Qed.

Lemma concatenate_ok : forall cs w, cs <> [] -> Forall (fun c : column row => c_width c = w) cs ->
  concatenate cs = Ok (mkCol (forallb c_int cs) w (concat (map c_rows cs))).
Proof.
  intros cs w N F. destruct cs as [|c cs]; [congruence|]. unfold concatenate.
  assert (W : c_width c = w) by (inversion F; auto). rewrite W.
  replace (forallb _ (c :: cs)) with true; [reflexivity|]. symmetry. apply forallb_forall. intros c' H.
  rewrite Forall_forall in F. rewrite (F c' H). destruct (list_eq_dec Nat.eq_dec w w); congruence.
Qed.

Definition size_of (s : subfind row) (d : dset) : nat := match d with Group => fst (s_sizes s) | Subhalo => snd (s_sizes s) end.

Lemma C76_array_aux : forall (s : subfind row) d name f0 rest c0, s_files s = f0 :: rest ->
  dataset f0 d name = Some c0 -> uniform (s_files s) d name (c_width c0) ->
  let data := concat (map (fun f => rows_of f d name) (s_files s)) in
  (length data = size_of s d ->
   exists c, read_array s d name = Ok c /\ c_rows c = data /\ c_width c = c_width c0 /\
     (c_int c = true <-> all_integer (s_files s) d name)) /\
  (length data <> size_of s d -> read_array s d name = AssertionError).
Proof.
  intros s d name f0 rest c0 E D U data.
  destruct (all_files_ok (s_files s) d name (c_width c0) U) as [cs [A [R [W I]]]].
  assert (NE : cs <> []).
  { intros ->. rewrite E in R. discriminate. }
  pose proof (concatenate_ok cs _ NE W) as C.
  assert (G : f_good f0 = true) by (apply (U f0); rewrite E; left; auto).
  assert (RA : read_array s d name = (if Nat.eqb (length data) (size_of s d) then
     Ok (mkCol (forallb c_int cs) (c_width c0) data) else AssertionError)).
  { unfold read_array. rewrite E. unfold get_single_file_array at 1. rewrite G, D. cbn [bind].
    rewrite <- E. rewrite A. cbn [bind]. rewrite C. cbn [bind c_rows]. rewrite R. fold data. destruct d; reflexivity. }
  rewrite RA. split; intros L.
  - rewrite (proj2 (Nat.eqb_eq _ _) L). eexists. split; [reflexivity|]. cbn [c_rows c_width c_int]. auto.
  - destruct (Nat.eqb_spec (length data) (size_of s d)); congruence.
Qed.

(** ** Errors *)

Lemma C76_absent_aux : forall (s : subfind row) d name f0 rest, s_files s = f0 :: rest -> f_good f0 = true ->
  dataset f0 d name = None -> read_array s d name = TypeError.
Proof. intros s d name f0 rest E G D. unfold read_array, get_single_file_array. rewrite E, G, D. reflexivity. Qed.

Lemma C76_none_aux : forall (listing : list (string * file row)) n,
  (forall name f, In (name, f) listing -> forall mid, name <> "fof_subhalo_tab_" ++ snap n ++ mid ++ ".hdf5") ->
  load_halo listing n = Raised.
Proof.
  intros listing n H. unfold load_halo, open_cat.
  replace (filter _ listing) with (@nil (string * file row)); [reflexivity|]. symmetry.
  induction listing as [|[name f] l IH]; [reflexivity|]. cbn [filter fst].
  destruct (glob_match ("fof_subhalo_tab_" ++ snap n) ".hdf5" name) eqn:E.
  - exfalso. apply glob_spec in E as [m E]. rewrite <- app_assoc_s in E.
    apply (H name f (or_introl eq_refl) m). exact E.
  - apply IH. intros name' f' I. apply (H name' f'). right; auto.
Qed.

(** ** Cache *)

Lemma same_key_spec : forall a b, same_key a b = true <-> a = b.
Proof.
  intros [[] x] [[] y]; unfold same_key; cbn [fst snd]; rewrite ?String.eqb_eq; split; intros H; congruence.
Qed.

Definition faithful (s : subfind row) (k : cache row) : Prop :=
  forall d name c, In ((d, name), c) k -> read_array s d name = Ok c.

Lemma get_array_spec : forall s k d name, faithful s k ->
  fst (get_array s k d name) = read_array s d name /\ faithful s (snd (get_array s k d name)).
Proof.
  intros s k d name F. unfold get_array.
  destruct (find (fun p => same_key (fst p) (d, name)) k) as [[[d' n'] c]|] eqn:E.
  - apply find_some in E as [I Q]. apply same_key_spec in Q. cbn [fst snd] in *. injection Q as -> ->.
    rewrite (F _ _ _ I). auto.
  - destruct (read_array s d name) as [data| | | | | |] eqn:Q; cbn [fst snd]; auto. split; auto.
    intros d' n' c [H|H]; [injection H as <- <- <-; exact Q|]. apply F, H.
Qed.

Lemma C76_calls_aux : forall (s : subfind row) calls,
  get_arrays s [] calls = map (fun p => read_array s (fst p) (snd p)) calls.
Proof.
  intros s calls. assert (F : faithful s []) by (intros d n c []). revert F. generalize (@nil ((dset * string) * column row)).
  induction calls as [|[d name] calls IH]; intros k F; [reflexivity|]. cbn [get_arrays map fst snd].
  destruct (get_array_spec s k d name F) as [A B]. destruct (get_array s k d name) as [r k']. cbn [fst snd] in *. subst r.
  f_equal. apply IH, B.
Qed.

Lemma load_all_spec : forall (s : subfind row) calls k, faithful s k ->
  forall cs, (load_all s k calls = Ok cs <-> map (fun p => read_array s (fst p) (snd p)) calls = map Ok cs).
Proof.
  intros s calls; induction calls as [|[d name] calls IH]; intros k F cs.
  - cbn. split; intros H; [injection H as <-; reflexivity|]. destruct cs; [reflexivity|discriminate].
  - cbn [load_all map fst snd]. destruct (get_array_spec s k d name F) as [A B].
    destruct (get_array s k d name) as [r k']. cbn [fst snd] in *. subst r.
    destruct (read_array s d name) as [c| | | | | |]; cbn [bind];
      try (split; [discriminate|destruct cs; discriminate]).
    specialize (IH k' B). destruct (load_all s k' calls) as [cs'| | | | | |] eqn:E; cbn [bind].
    + split.
      * intros H. injection H as <-. cbn [map]. f_equal. apply IH. reflexivity.
      * intros H. destruct cs as [|c2 cs2]; [discriminate|]. cbn [map] in H. injection H as <- H.
        apply IH in H. injection H as ->. reflexivity.
    + split; [discriminate|]. intros H. destruct cs as [|c2 cs2]; [discriminate|]. cbn [map] in H. injection H as <- H.
      apply IH in H. discriminate.
    + split; [discriminate|]. intros H. destruct cs as [|c2 cs2]; [discriminate|]. cbn [map] in H. injection H as <- H.
      apply IH in H. discriminate.
    + split; [discriminate|]. intros H. destruct cs as [|c2 cs2]; [discriminate|]. cbn [map] in H. injection H as <- H.
      apply IH in H. discriminate.
    + split; [discriminate|]. intros H. destruct cs as [|c2 cs2]; [discriminate|]. cbn [map] in H. injection H as <- H.
      apply IH in H. discriminate.
    + split; [discriminate|]. intros H. destruct cs as [|c2 cs2]; [discriminate|]. cbn [map] in H. injection H as <- H.
      apply IH in H. discriminate.
    + split; [discriminate|]. intros H. destruct cs as [|c2 cs2]; [discriminate|]. cbn [map] in H. injection H as <- H.
      apply IH in H. discriminate.
Qed.

(** ** Rows *)

Lemma concat_origin : forall fs (rw : file row -> list row) k v,
  nth_error (concat (map rw fs)) k = Some v <->
  exists j i f, origin (fun f => length (rw f)) fs k j i /\ nth_error fs j = Some f /\ nth_error (rw f) i = Some v.
Proof.
  intros fs rw. induction fs as [|f fs IH]; intros k v.
  - cbn [map concat]. split; [destruct k; discriminate|]. intros [j [i [f [[f' [H _]] _]]]]. destruct j; discriminate.
  - cbn [map concat]. destruct (lt_dec k (length (rw f))) as [L|L].
    + rewrite nth_error_app1 by auto. split.
      * intros H. exists 0, k, f. split; [exists f; cbn; auto|auto].
      * intros [j [i [g [[f' [H1 [H2 H3]]] [H4 H5]]]]]. destruct j as [|j].
        -- cbn in H1, H3, H4. injection H4 as ->. subst k. exact H5.
        -- cbn [firstn map] in H3. change (list_sum (length (rw f) :: map (fun f => length (rw f)) (firstn j fs)))
             with (length (rw f) + list_sum (map (fun f => length (rw f)) (firstn j fs))) in H3. lia.
    + rewrite nth_error_app2 by lia. rewrite IH. split.
      * intros [j [i [g [[f' [H1 [H2 H3]]] [H4 H5]]]]]. exists (S j), i, g. split; [|auto]. exists f'. split; [auto|]. split; [auto|].
        cbn [firstn map]. change (list_sum (length (rw f) :: map (fun f => length (rw f)) (firstn j fs)))
             with (length (rw f) + list_sum (map (fun f => length (rw f)) (firstn j fs))). lia.
      * intros [j [i [g [[f' [H1 [H2 H3]]] [H4 H5]]]]]. destruct j as [|j].
        -- exfalso. cbn in H1, H3. injection H1 as <-. cbn in H4. injection H4 as ->. lia.
        -- exists j, i, g. split; [|auto]. exists f'. split; [auto|]. split; [auto|].
           cbn [firstn map] in H3. change (list_sum (length (rw f) :: map (fun f => length (rw f)) (firstn j fs)))
             with (length (rw f) + list_sum (map (fun f => length (rw f)) (firstn j fs))) in H3. lia.
Qed.

Lemma list_sum_ext : forall A (f g : A -> nat) l, (forall x, In x l -> f x = g x) -> list_sum (map f l) = list_sum (map g l).
Proof.
  intros A f g l H. induction l as [|x l IH]; [reflexivity|]. cbn [map].
  change (f x + list_sum (map f l) = g x + list_sum (map g l)). rewrite IH, (H x); auto; [left; auto|intros; apply H; right; auto].
Qed.

Lemma origin_ext : forall fs (c1 c2 : file row -> nat) k j i, (forall f, In f fs -> c1 f = c2 f) ->
  origin c1 fs k j i -> origin c2 fs k j i.
Proof.
  intros fs c1 c2 k j i H [f [H1 [H2 H3]]]. exists f. split; auto. rewrite <- (H f) by (eapply nth_error_In; eauto).
  split; auto. rewrite H3. f_equal. apply list_sum_ext. intros x X. apply H.
  rewrite <- (firstn_skipn j fs). apply in_app_iff. auto.
Qed.

Lemma C76_aligned_aux : forall (s : subfind row) d x y cx cy (cnt : file row -> nat),
  read_array s d x = Ok cx -> read_array s d y = Ok cy ->
  (exists w, uniform (s_files s) d x w) -> (exists w, uniform (s_files s) d y w) ->
  (forall f, In f (s_files s) -> length (rows_of f d x) = cnt f /\ length (rows_of f d y) = cnt f) ->
  length (c_rows cx) = length (c_rows cy) /\
  forall k v, (nth_error (c_rows cx) k = Some v <-> exists j i f, origin cnt (s_files s) k j i /\
     nth_error (s_files s) j = Some f /\ nth_error (rows_of f d x) i = Some v) /\
   (nth_error (c_rows cy) k = Some v <-> exists j i f, origin cnt (s_files s) k j i /\
     nth_error (s_files s) j = Some f /\ nth_error (rows_of f d y) i = Some v).
Proof.
  intros s d x y cx cy cnt RX RY UX UY LEN.
  assert (G : forall z cz, read_array s d z = Ok cz -> (exists w, uniform (s_files s) d z w) ->
    c_rows cz = concat (map (fun f => rows_of f d z) (s_files s))).
  { intros z cz RZ [w U]. pose proof RZ as RZ'. unfold read_array in RZ'. destruct (s_files s) as [|f0 rest] eqn:E; [discriminate|].
    unfold get_single_file_array at 1 in RZ'. destruct (U f0 (or_introl eq_refl)) as [GF WF]. rewrite GF in RZ'.
    destruct (dataset f0 d z) as [c0|] eqn:D; [|discriminate]. clear RZ'.
    assert (W0 : c_width c0 = w) by (apply WF; auto).
    destruct (C76_array_aux s d z f0 rest c0 E D) as [A B]; [rewrite E, W0; exact U|].
    rewrite E in A, B. destruct (Nat.eq_dec (length (concat (map (fun f => rows_of f d z) (f0 :: rest)))) (size_of s d)) as [L|L].
    - destruct (A L) as [c [C1 [C2 _]]]. congruence.
    - rewrite (B L) in RZ. discriminate. }
  rewrite (G x cx RX UX), (G y cy RY UY).
  assert (EX : forall k j i, origin (fun f => length (rows_of f d x)) (s_files s) k j i <-> origin cnt (s_files s) k j i).
  { intros; split; apply origin_ext; intros f I; destruct (LEN f I); congruence. }
  assert (EY : forall k j i, origin (fun f => length (rows_of f d y)) (s_files s) k j i <-> origin cnt (s_files s) k j i).
  { intros; split; apply origin_ext; intros f I; destruct (LEN f I); congruence. }
  split.
  - rewrite <- !flat_map_concat_map. clear - LEN. induction (s_files s) as [|f fs IH]; [reflexivity|]. cbn [flat_map].
    rewrite !app_length, IH by (intros; apply LEN; right; auto). destruct (LEN f (or_introl eq_refl)). congruence.
  - intros k v. rewrite !concat_origin. split; split; intros [j [i [f [O R]]]]; exists j, i, f; (split; [|exact R]);
      first [apply EX; exact O|apply EY; exact O].
Qed.

End Cat.

(** ** Order of the parts *)

Section Order.
Context {row : Type}.

Definition le_file (f g : string * file row) : Prop := String.compare (fst f) (fst g) <> Gt.
Definition lt_file (f g : string * file row) : Prop := String.compare (fst f) (fst g) = Lt.

Lemma insert_file_perm : forall (f : string * file row) l, Permutation (insert_file f l) (f :: l).
Proof.
  induction l as [|g l IH]; cbn [insert_file]; [reflexivity|]. destruct String.leb; [reflexivity|].
  rewrite IH. apply perm_swap.
Qed.
Lemma sort_files_perm : forall l : list (string * file row), Permutation (sort_files l) l.
Proof. induction l; cbn; [reflexivity|]. rewrite insert_file_perm. now constructor. Qed.

Lemma le_file_trans : forall f g h, le_file f g -> le_file g h -> le_file f h.
Proof. intros [f ?] [g ?] [h ?]. unfold le_file. exact (le_name_trans (f, true) (g, true) (h, true)). Qed.

Lemma insert_file_sorted : forall f l, StronglySorted le_file l -> StronglySorted le_file (insert_file f l).
Proof.
  intros f l H. induction H as [|g l H IH F]; cbn [insert_file]; [repeat constructor|].
  destruct (String.leb (fst f) (fst g)) eqn:E.
  - assert (L : le_file f g). { unfold le_file. intros K. unfold String.leb in E. rewrite K in E. discriminate. }
    constructor; [now constructor|]. constructor; [exact L|].
    eapply Forall_impl; [|exact F]. intros. eapply le_file_trans; eauto.
  - constructor; [exact IH|]. eapply Permutation_Forall; [symmetry; apply insert_file_perm|].
    constructor; [|exact F]. unfold le_file. unfold String.leb in E.
    destruct (String.compare (fst f) (fst g)) eqn:K; try discriminate. rewrite String.compare_antisym, K. discriminate.
Qed.
Lemma sort_files_sorted : forall l, StronglySorted le_file (sort_files l).
Proof. induction l; cbn; [constructor|]. now apply insert_file_sorted. Qed.

(** A sorted list with the same members as a strictly ascending one is that list. *)
Lemma sorted_unique : forall l l', StronglySorted lt_file l -> StronglySorted le_file l' -> Permutation l' l -> l' = l.
Proof.
  intros l; induction l as [|x l IH]; intros l' L L' P.
  - apply Permutation_nil. symmetry. exact P.
  - destruct l' as [|y l']; [apply Permutation_nil in P; discriminate|].
    inversion L as [|a b A1 A2]; subst. inversion L' as [|a b B1 B2]; subst.
    assert (y = x).
    { assert (I1 : In y (x :: l)) by (eapply Permutation_in; [exact P|left; auto]).
      assert (I2 : In x (y :: l')) by (eapply Permutation_in; [symmetry; exact P|left; auto]).
      destruct I1 as [E|I1]; auto. destruct I2 as [E|I2]; auto.
      rewrite Forall_forall in *. specialize (A2 y I1). specialize (B2 x I2). unfold lt_file, le_file in *.
      rewrite String.compare_antisym, A2 in B2. cbn in B2. congruence. }
    subst y. f_equal. apply IH; auto. eapply Permutation_cons_inv; eauto.
Qed.

Lemma compare_app : forall a s t, String.compare (a ++ s) (a ++ t) = String.compare s t.
Proof. induction a as [|c a IH]; intros s t; [reflexivity|]. cbn. rewrite ascii_compare_refl. apply IH. Qed.

Lemma parts_compare : forall n i j, i < j -> j < 10 -> String.compare (part n i) (part n j) = Lt.
Proof.
  intros n i j L J. unfold part. rewrite !compare_app.
  do 10 (destruct j as [|j]; [try lia; do 10 (destruct i as [|i]; [try lia; try reflexivity|]); lia|]). lia.
Qed.

Lemma parts_sorted : forall n m k (content : nat -> file row), k + m <= 10 ->
  StronglySorted lt_file (map (fun i => (part n i, content i)) (seq k m)).
Proof.
  intros n m; induction m as [|m IH]; intros k content L; cbn [seq map]; constructor.
  - apply IH. lia.
  - apply Forall_forall. intros f F. apply in_map_iff in F as [i [<- I]]. apply in_seq in I.
    unfold lt_file. cbn [fst]. apply parts_compare; lia.
Qed.

Lemma part_glob : forall n i, glob_match ("fof_subhalo_tab_" ++ snap n) ".hdf5" (part n i) = true.
Proof.
  intros n i. apply glob_spec. exists ("." ++ decimal (S i) i). unfold part. rewrite <- !app_assoc_s. reflexivity.
Qed.

Lemma filter_perm : forall A (p : A -> bool) l l', Permutation l l' -> Permutation (filter p l) (filter p l').
Proof.
  intros A p l l' H. induction H; cbn [filter]; auto.
  - destruct (p x); auto.
  - destruct (p x), (p y); auto. apply perm_swap.
  - eapply Permutation_trans; eauto.
Qed.

Lemma holds_filter : forall n m (content : nat -> file row) listing, holds n m content listing ->
  Permutation (filter (fun f => glob_match ("fof_subhalo_tab_" ++ snap n) ".hdf5" (fst f)) listing)
    (map (fun i => (part n i, content i)) (seq 0 m)).
Proof.
  intros n m content listing [others [P O]].
  eapply Permutation_trans; [apply filter_perm, P|]. rewrite filter_app.
  replace (filter _ others) with (@nil (string * file row)).
  - rewrite app_nil_r. clear. generalize 0 at 1 2. induction m as [|m IH]; intros k; [constructor|].
    cbn [seq map filter fst]. rewrite part_glob. constructor. apply IH.
  - symmetry. clear P. induction others as [|[name f] l IH]; [reflexivity|]. cbn [filter fst].
    destruct (glob_match ("fof_subhalo_tab_" ++ snap n) ".hdf5" name) eqn:E.
    + exfalso. apply glob_spec in E as [k E]. rewrite <- app_assoc_s in E.
      apply (O name f (or_introl eq_refl) k). exact E.
    + apply IH. intros name' f' I. apply (O name' f'). right; auto.
Qed.

Lemma C76_numbered_aux : forall n m (content : nat -> file row) listing sizes, holds n m content listing ->
  1 <= m <= 10 -> f_good (content 0) = true -> f_header (content 0) = Some sizes ->
  f_group (content 0) <> None -> f_sub (content 0) <> None ->
  open_cat listing n = Ok (mkSub (map content (seq 0 m)) sizes).
Proof.
  intros n m content listing sizes H M G HD HG HS. unfold open_cat.
  assert (E : sort_files (filter (fun f => glob_match ("fof_subhalo_tab_" ++ snap n) ".hdf5" (fst f)) listing) =
    map (fun i => (part n i, content i)) (seq 0 m)).
  { apply sorted_unique; [apply parts_sorted; lia|apply sort_files_sorted|].
    eapply Permutation_trans; [apply sort_files_perm|]. apply holds_filter, H. }
  rewrite E. destruct m as [|m]; [lia|]. cbn [seq map]. rewrite G, HD.
  destruct (f_group (content 0)); [|congruence]. destruct (f_sub (content 0)); [|congruence].
  rewrite map_map. reflexivity.
Qed.

End Order.

(** ** Witnesses *)

(** Part [i] of a catalogue of [t] parts with one group and one subhalo each; the group carries its number, and the subhalo
    that of its group. *)
Definition numbered_part (t i : nat) : file nat :=
  mkFile true (Some (t, t)) (Some [("GroupFirstSub", mkCol true [] [i])]) (Some [("SubhaloGrNr", mkCol true [] [i])]).

Lemma C76_eleven_aux : exists listing s grp, holds 0 11 (numbered_part 11) listing /\ open_cat listing 0 = Ok s /\
  read_array s Group "GroupFirstSub" = Ok grp /\ length (c_rows grp) = 11 /\
  nth_error (c_rows grp) 2 = Some 10 /\ nth_error (c_rows grp) 3 = Some 2.
Proof.
  exists (map (fun i => (part 0 i, numbered_part 11 i)) (seq 0 11)). eexists. eexists.
  split; [exists []; rewrite app_nil_r; split; [reflexivity|intros ? ? []]|].
  split; [vm_compute; reflexivity|]. split; [vm_compute; reflexivity|]. repeat split.
Qed.

(** A second part without subhalos turns an integer array into one of floats. *)
Definition with_sub : file nat :=
  mkFile true (Some (2, 1)) (Some [("GroupFirstSub", mkCol true [] [0])]) (Some [("SubhaloGrNr", mkCol true [] [0])]).
Definition without_sub : file nat :=
  mkFile true (Some (2, 1)) (Some [("GroupFirstSub", mkCol true [] [1])]) (Some []).

Lemma C76_floats_aux : exists (listing : list (string * file nat)) s c, holds 0 2 (fun i => if Nat.eqb i 0 then with_sub else without_sub) listing /\
  (forall name f c', In (name, f) listing -> dataset f Subhalo "SubhaloGrNr" = Some c' -> c_int c' = true) /\
  open_cat listing 0 = Ok s /\ read_array s Subhalo "SubhaloGrNr" = Ok c /\ c_int c = false.
Proof.
  exists [(part 0 0, with_sub); (part 0 1, without_sub)]. eexists. eexists.
  split; [exists []; rewrite app_nil_r; split; [reflexivity|intros ? ? []]|]. split.
  - intros name f c' [H|[H|[]]] D; injection H as <- <-; vm_compute in D; [|discriminate]. injection D as <-. reflexivity.
  - split; [vm_compute; reflexivity|]. split; [vm_compute; reflexivity|]. reflexivity.
Qed.

(** ** Whole catalogues *)

Section Whole.
Context {row : Type}.

Lemma C76_parts_aux : forall n m (content : nat -> file row) listing sizes, holds n m content listing ->
  1 <= m <= 10 -> f_good (content 0) = true -> f_header (content 0) = Some sizes ->
  f_group (content 0) <> None -> f_sub (content 0) <> None ->
  exists s, open_cat listing n = Ok s /\ forall d name c0, dataset (content 0) d name = Some c0 ->
    uniform (map content (seq 0 m)) d name (c_width c0) ->
    let total := match d with Group => fst sizes | Subhalo => snd sizes end in
    let data := concat (map (fun i => rows_of (content i) d name) (seq 0 m)) in
    (length data = total -> exists c, read_array s d name = Ok c /\ c_rows c = data /\ c_width c = c_width c0 /\
       (c_int c = true <-> all_integer (map content (seq 0 m)) d name)) /\
    (length data <> total -> read_array s d name = AssertionError).
Proof.
  intros n m content listing sizes H M G HD HG HS.
  pose proof (C76_numbered_aux n m content listing sizes H M G HD HG HS) as O. eexists. split; [exact O|].
  intros d name c0 D U total data. destruct m as [|m]; [lia|].
  pose proof (C76_array_aux (mkSub (map content (seq 0 (S m))) sizes) d name (content 0) (map content (seq 1 m)) c0 eq_refl D U) as A.
  cbn [s_files] in A. rewrite map_map in A. fold data in A. unfold size_of in A. cbn [s_sizes] in A. exact A.
Qed.

Lemma C76_complete_aux : forall (s : subfind row) d name c, read_array s d name = Ok c ->
  length (c_rows c) = match d with Group => fst (s_sizes s) | Subhalo => snd (s_sizes s) end.
Proof.
  intros s d name c. unfold read_array. destruct (s_files s) as [|f0 fs]; [discriminate|].
  destruct get_single_file_array as [c0| | | | | |]; cbn [bind]; try discriminate.
  destruct all_files as [cs| | | | | |]; cbn [bind]; try discriminate.
  destruct concatenate as [dt| | | | | |]; cbn [bind]; try discriminate.
  destruct (Nat.eqb_spec (length (c_rows dt)) (match d with Group => fst (s_sizes s) | Subhalo => snd (s_sizes s) end)) as [E|E];
    intros H; [injection H as <-; exact E|discriminate].
Qed.

Lemma all_files_io : forall fs d name w, (exists f : file row, In f fs /\ f_good f = false) -> all_files fs d name w = IOError.
Proof.
  intros fs d name w. induction fs as [|f fs IH]; intros [g [I B]]; [destruct I|]. cbn [all_files].
  destruct (f_good f) eqn:G.
  - destruct (single_ok f d name w G) as [c [S1 _]]. rewrite S1. cbn [bind]. rewrite IH; [reflexivity|].
    exists g. destruct I as [<-|I]; [congruence|auto].
  - unfold get_single_file_array. rewrite G. reflexivity.
Qed.

(** The arrays of a catalogue in which every file can be opened. *)
Lemma C76_load_aux : forall (listing : list (string * file row)) n cs, load_halo listing n = Loaded cs <->
  exists s, open_cat listing n = Ok s /\ map (fun p => read_array s (fst p) (snd p)) halo_arrays = map Ok cs.
Proof.
  intros listing n cs. unfold load_halo. destruct (open_cat listing n) as [s| | | | | |]; cbn [bind];
    try (split; [discriminate|intros [s [E _]]; discriminate]).
  assert (F : faithful s []) by (intros d nm c []).
  pose proof (load_all_spec s wanted [] F) as L. change wanted with halo_arrays in L at 2. split.
  - intros H. exists s. split; [reflexivity|]. apply L. destruct (load_all s [] wanted); try discriminate. injection H as ->. reflexivity.
  - intros [s' [E H]]. injection E as <-. apply L in H. rewrite H. reflexivity.
Qed.

Lemma open_first : forall (listing : list (string * file row)) n s, open_cat listing n = Ok s ->
  exists f0 rest, s_files s = f0 :: rest /\ f_good f0 = true.
Proof.
  intros listing n s. unfold open_cat. destruct sort_files as [|[nm f] l]; [discriminate|].
  destruct (f_good f) eqn:G; [|discriminate]. destruct (f_header f), (f_group f), (f_sub f); try discriminate.
  intros H. injection H as <-. exists f, (map snd l). auto.
Qed.

Lemma C76_unreadable_aux : forall (listing : list (string * file row)) n s,
  open_cat listing n = Ok s ->
  (exists f, In f (s_files s) /\ f_good f = false) ->
  (load_halo listing n = Ignored <-> exists f0 c, nth_error (s_files s) 0 = Some f0 /\ dataset f0 Group "GroupPos" = Some c) /\
  (load_halo listing n <> Ignored -> load_halo listing n = Raised).
Proof.
  intros listing n s O B. destruct (open_first listing n s O) as [f0 [rest [E G]]].
  assert (R : load_halo listing n = match dataset f0 Group "GroupPos" with Some _ => Ignored | None => Raised end).
  { unfold load_halo. rewrite O. cbn [bind]. unfold wanted. cbn [load_all]. unfold get_array at 1. cbn [find].
    unfold read_array. rewrite E. unfold get_single_file_array at 1. rewrite G.
    destruct (dataset f0 Group "GroupPos") as [c|]; [|reflexivity]. cbn [bind]. rewrite <- E, (all_files_io _ _ _ _ B). reflexivity. }
  rewrite R, E. cbn [nth_error]. destruct (dataset f0 Group "GroupPos") as [c|] eqn:D.
  - split; [|congruence]. split; intros _; [exists f0, c; auto|reflexivity].
  - split; [|reflexivity]. split; [discriminate|]. intros [f [c [H1 H2]]]. congruence.
Qed.

End Whole.

(** A catalogue with groups but no subhalo: the header says so, and the first file has no dataset of subhalos. *)
Definition full_group (i : nat) : list (string * column nat) :=
  [("GroupPos", mkCol false [3] [i]); ("Group_M_Crit200", mkCol false [] [i]); ("Group_R_Crit200", mkCol false [] [i]);
   ("GroupVel", mkCol false [3] [i])].
Definition full_sub (i : nat) : list (string * column nat) :=
  [("SubhaloHalfmassRad", mkCol false [] [i]); ("SubhaloPos", mkCol false [3] [i]); ("SubhaloMass", mkCol false [] [i]);
   ("SubhaloGrNr", mkCol true [] [i]); ("SubhaloVel", mkCol false [3] [i])].

Lemma C76_nosub_aux : exists (listing : list (string * file nat)) s,
  holds 0 1 (fun i => mkFile true (Some (1, 0)) (Some (full_group i)) (Some [])) listing /\
  open_cat listing 0 = Ok s /\ snd (s_sizes s) = 0 /\ read_array s Subhalo "SubhaloPos" = TypeError /\
  load_halo listing 0 = Raised.
Proof.
  exists [(part 0 0, mkFile true (Some (1, 0)) (Some (full_group 0)) (Some []))]. eexists.
  split; [exists []; rewrite app_nil_r; split; [reflexivity|intros ? ? []]|].
  split; [vm_compute; reflexivity|]. split; [reflexivity|]. split; vm_compute; reflexivity.
Qed.

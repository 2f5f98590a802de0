(** Proofs about opening snapshots and about block names. *)
From Coq Require Import Ascii String ZArith List Bool Arith Lia Sorted Permutation.
From Verif Require Import SnapshotModel SnapshotProofs OpenModel OpenSpec OpenProofs.
Import ListNotations.
Local Open Scope string_scope.
Local Open Scope nat_scope.
Local Open Scope list_scope.

Lemma home_search : forall k n d l, home k n d l <-> d = search_dir k None n /\ l = names_in k d.
Proof.
  intros k n d l. unfold home, search_dir, names_in. split.
  - intros (s & N & H). apply numeral_snap in N. subst s. destruct H as [[E ->]|[E [-> H]]].
    + rewrite !E. now split.
    + rewrite E. split; [reflexivity|]. destruct H as [->|[-> ->]]; reflexivity.
  - intros [-> ->]. exists (snap n). split; [apply snap_numeral|].
    destruct (listing k ("snapdir_" ++ snap n)%string) eqn:E.
    + left. now rewrite !E.
    + right. split; [reflexivity|]. split; [reflexivity|]. destruct (listing k "") ; [now left|now right].
Qed.

Definition chosen (k : disk) (d : string) (n : nat) : list (string * bool) :=
  match globbed k d "snap_" n with [] => globbed k d "snapshot_" n | f => f end.

Lemma globbed_in : forall k d w n f, In f (globbed k d w n) <-> In f (names_in k d) /\ looks_like w n (fst f).
Proof. intros. unfold globbed. rewrite filter_In, looks_glob. reflexivity. Qed.

Lemma chosen_in : forall k d n f, In f (chosen k d n) <-> member (names_in k d) n f.
Proof.
  intros k d n f. unfold chosen, member. destruct (globbed k d "snap_" n) as [|g l] eqn:E.
  - assert (No : forall g, In g (names_in k d) -> ~ looks_like "snap_" n (fst g)).
    { intros g Hg Lk. assert (K : In g (globbed k d "snap_" n)) by (apply globbed_in; now split).
      rewrite E in K. exact K. }
    rewrite globbed_in. split; [intros [A B]; split; [exact A|right; now split]|].
    intros [A [B|[_ B]]]; [exfalso; now apply (No f)|now split].
  - rewrite <- E, globbed_in. split; [intros [A B]; split; [exact A|now left]|].
    intros [A [B|[B _]]]; [now split|exfalso].
    assert (K : In g (globbed k d "snap_" n)) by (rewrite E; now left). apply globbed_in in K. destruct K. eapply B; eauto.
Qed.

Lemma chosen_nodup : forall k d n, NoDup (map fst (names_in k d)) -> NoDup (map fst (chosen k d n)).
Proof.
  intros k d n H. unfold chosen. assert (F : forall p l, NoDup (map fst l) -> NoDup (map fst (@filter (string * bool) p l))).
  { intros p l. induction l as [|x l IH]; cbn; intros N; [constructor|]. inversion N; subst. destruct (p x); cbn; auto.
    constructor; auto. intros K. apply in_map_iff in K. destruct K as (y & E & K). apply filter_In in K. destruct K as [K _].
    match goal with A : ~ In _ _ |- _ => apply A end. rewrite <- E. now apply in_map. }
  destruct (globbed k d "snap_" n) eqn:E; [|rewrite <- E]; apply F; exact H.
Qed.

Lemma open_unfold : forall k comm n, open_hdf5 k comm n =
  match chosen k (search_dir k comm n) n with
  | [] => IOErr
  | l =>
      match (match comm with None => Some (filter snd (sort_names l))
             | Some (rank, size) => rank_files snd (sort_names l) size rank end) with
      | None => IndexErr
      | Some fs => match rev (sort_names fs) with [] => IndexErr | fs' => Hdf5 (search_dir k comm n) (map fst fs') end
      end
  end.
Proof.
  intros. unfold open_hdf5, chosen. destruct (globbed k (search_dir k comm n) "snap_" n) eqn:E.
  - destruct (globbed k (search_dir k comm n) "snapshot_" n); [reflexivity|].
    match goal with |- match ?m with _ => _ end = _ => destruct m as [fs|]; [|reflexivity] end.
    unfold hdf5_init. destruct (rev (sort_names fs)); reflexivity.
  - match goal with |- match ?m with _ => _ end = _ => destruct m as [fs|]; [|reflexivity] end.
    unfold hdf5_init. destruct (rev (sort_names fs)); reflexivity.
Qed.

Lemma rev_sort_in : forall l x, In x (map fst (rev (sort_names (filter snd l)))) <-> In (x, true) l.
Proof.
  intros l x. rewrite in_map_iff. split.
  - intros ([y b] & E & H). cbn in E. subst y. apply in_rev in H.
    apply (Permutation_in _ (sort_perm _)) in H. apply filter_In in H. destruct H as [H Q]. cbn in Q. now subst b.
  - intros H. exists (x, true). split; [reflexivity|]. rewrite <- in_rev.
    apply (Permutation_in _ (Permutation_sym (sort_perm _))). apply filter_In. now split.
Qed.

Lemma nodup_perm : forall l l' : list (string * bool), Permutation l l' -> NoDup (map fst l) -> NoDup (map fst l').
Proof. intros l l' P. apply Permutation_NoDup. now apply Permutation_map. Qed.

Lemma nodup_filter : forall p (l : list (string * bool)), NoDup (map fst l) -> NoDup (map fst (filter p l)).
Proof.
  intros p l. induction l as [|x l IH]; cbn; intros N; [constructor|]. inversion N; subst. destruct (p x); cbn; auto.
  constructor; auto. intros K. apply in_map_iff in K. destruct K as (y & E & K). apply filter_In in K. destruct K as [K _].
  match goal with A : ~ In _ _ |- _ => apply A end. rewrite <- E. now apply in_map.
Qed.

Lemma C71_files_aux : forall k has_bigfile n d l, home k n d l -> NoDup (map fst l) ->
  (exists f, member l n (f, true)) ->
  exists files, factory k has_bigfile None n = Hdf5 d files /\ descending files /\
    forall f, In f files <-> member l n (f, true).
Proof.
  intros k hb n d l H N [f M]. apply home_search in H. destruct H as [-> ->].
  pose proof M as M'. apply chosen_in in M. unfold factory. rewrite open_unfold.
  destruct (chosen k (search_dir k None n) n) as [|c cs] eqn:E; [contradiction|]. rewrite <- E in *.
  pose proof (rev_sort_in (sort_names (chosen k (search_dir k None n) n))) as I.
  assert (D : descending (map fst (rev (sort_names (filter snd (sort_names (chosen k (search_dir k None n) n))))))).
  { apply rev_descending; [apply sort_sorted_n|]. eapply nodup_perm; [symmetry; apply sort_perm|]. apply nodup_filter.
    eapply nodup_perm; [symmetry; apply sort_perm|]. now apply chosen_nodup. }
  cbv beta iota zeta.
  destruct (rev (sort_names (filter snd (sort_names (chosen k (search_dir k None n) n))))) as [|r rs] eqn:Q.
  - exfalso. apply (I f). apply (Permutation_in _ (Permutation_sym (sort_perm _))). exact M.
  - eexists. split; [reflexivity|]. split; [exact D|]. intros x. rewrite I. rewrite <- chosen_in. split; intros K.
    + apply (Permutation_in _ (sort_perm _)). exact K.
    + apply (Permutation_in _ (Permutation_sym (sort_perm _))). exact K.
Qed.

Lemma big_at_spec : forall k n, match open_big k n with
  | Some d => forall d', bigfile_at k n d' <-> d' = d
  | None => forall d', ~ bigfile_at k n d' end.
Proof.
  intros k n. unfold open_big.
  set (d0 := match listing k ("PART_" ++ snap n)%string with Some _ => ("PART_" ++ snap n)%string | None => "" end).
  assert (K : forall d', bigfile_at k n d' <-> d' = d0 /\ big k d0 = GoodBig).
  { intros d'. unfold bigfile_at, d0. split.
    - intros (s & N & H & B). apply numeral_snap in N. subst s. destruct (listing k ("PART_" ++ snap n)%string).
      + destruct H as [[_ ->]|[? _]]; [now split|discriminate].
      + destruct H as [[? _]|[_ ->]]; [congruence|now split].
    - intros [-> B]. exists (snap n). split; [apply snap_numeral|]. destruct (listing k ("PART_" ++ snap n)%string).
      + split; [left; split; [discriminate|reflexivity]|exact B].
      + split; [right; now split|exact B]. }
  destruct (big k d0) eqn:E; intros d'; rewrite K; [intros [_ ?]; discriminate|intros [_ ?]; discriminate|].
  split; [intros [? _]; assumption|intros ->; now split].
Qed.

Lemma C71_formats_aux : forall k n d l, home k n d l -> (forall f, ~ member l n f) ->
  factory k false None n = IOErr /\
  (forall b, bigfile_at k n b -> factory k true None n = Big b) /\
  ((forall b, ~ bigfile_at k n b) -> factory k true None n = IOErr).
Proof.
  intros k n d l H M. apply home_search in H. destruct H as [-> ->]. unfold factory. rewrite open_unfold.
  destruct (chosen k (search_dir k None n) n) as [|c cs] eqn:E.
  - split; [reflexivity|]. pose proof (big_at_spec k n) as B. destruct (open_big k n) as [d|].
    + split; [intros b Hb; apply B in Hb; now subst|]. intros No. exfalso. apply (No d). now apply B.
    + split; [intros b Hb; exfalso; eapply B; eauto|reflexivity].
  - exfalso. apply (M c). apply chosen_in. rewrite E. now left.
Qed.

Lemma C71_foreign_aux : forall k has_bigfile n d l f, home k n d l -> member l n f ->
  (forall f, ~ member l n (f, true)) -> factory k has_bigfile None n = IndexErr.
Proof.
  intros k hb n d l f H M No. apply home_search in H. destruct H as [-> ->]. unfold factory. rewrite open_unfold.
  apply chosen_in in M. destruct (chosen k (search_dir k None n) n) as [|c cs] eqn:E; [contradiction|]. rewrite <- E in *.
  pose proof (rev_sort_in (sort_names (chosen k (search_dir k None n) n))) as I.
  cbv beta iota zeta.
  destruct (rev (sort_names (filter snd (sort_names (chosen k (search_dir k None n) n))))) as [|r rs]; [reflexivity|].
  exfalso. destruct (I (fst r)) as [J _]. specialize (J (or_introl eq_refl)).
  apply (Permutation_in _ (sort_perm _)) in J. apply chosen_in in J. eapply No; eauto.
Qed.

(** With a communicator. *)
Lemma rev_sort_perm : forall l, Permutation (map fst (rev (sort_names l))) (map fst l).
Proof. intros l. apply Permutation_map. rewrite <- Permutation_rev. apply sort_perm. Qed.

Lemma nodup_app_parts : forall A (l m : list A), NoDup (l ++ m) -> NoDup l /\ NoDup m.
Proof.
  intros A l m. induction l as [|x l IH]; cbn; intros H; [split; [constructor|exact H]|].
  inversion H; subst. destruct (IH ltac:(assumption)). split; [|assumption]. constructor; [|assumption].
  intros K. match goal with Q : ~ In _ _ |- _ => apply Q end. apply in_or_app. now left.
Qed.

Lemma C71_ranks_aux : forall k has_bigfile n l size, listing k "" = Some l -> NoDup (map fst l) -> 0 < size ->
  (exists f, member l n f) ->
  exists shares, length shares = size /\
    (forall r, r < size -> exists fs, nth_error shares r = Some fs /\ descending fs /\
       factory k has_bigfile (Some (r, size)) n = match fs with [] => IndexErr | _ => Hdf5 "" fs end) /\
    NoDup (concat shares) /\ forall f, In f (concat shares) <-> member l n (f, true).
Proof.
  intros k hb n l size L N S0 [f M].
  set (ch := sort_names (chosen k "" n)).
  exists (map (fun r => map fst (rev (sort_names (filter snd (rank_raw ch size r))))) (seq 0 size)).
  assert (Nl : names_in k "" = l) by (unfold names_in; now rewrite L).
  assert (Nc : NoDup (map fst ch)).
  { eapply nodup_perm; [symmetry; apply sort_perm|]. apply chosen_nodup. now rewrite Nl. }
  assert (P : Permutation (concat (map (fun r => map fst (rev (sort_names (filter snd (rank_raw ch size r))))) (seq 0 size)))
                (map fst (filter snd ch))).
  { transitivity (map fst (filter snd (flat_map (rank_raw ch size) (seq 0 size)))).
    - rewrite filter_flat_map. generalize (seq 0 size) as q. induction q as [|r q IH]; cbn [map concat flat_map]; [reflexivity|].
      rewrite map_app. apply Permutation_app; [apply rev_sort_perm|exact IH].
    - apply Permutation_map, Permutation_filter. now apply rank_raw_perm. }
  split; [now rewrite map_length, seq_length|]. split; [|split].
  - intros r Hr. eexists. split.
    { rewrite nth_error_map. assert (E : nth_error (seq 0 size) r = Some r).
      { rewrite nth_error_nth' with (d := 0) by now rewrite seq_length. now rewrite seq_nth. }
      rewrite E. reflexivity. }
    split.
    + apply rev_descending; [apply sort_sorted_n|]. eapply nodup_perm; [symmetry; apply sort_perm|]. apply nodup_filter.
      assert (Sub : NoDup (map fst (flat_map (rank_raw ch size) (seq 0 size)))).
      { eapply nodup_perm; [symmetry; apply rank_raw_perm; exact S0|exact Nc]. }
      assert (In r (seq 0 size)) by (apply in_seq; lia). clear - Sub H. induction (seq 0 size) as [|a q IH]; [contradiction|].
      cbn in Sub. rewrite map_app in Sub. destruct (nodup_app_parts _ _ _ Sub) as [Sub1 Sub2].
      destruct H as [->|H]; auto.
    + unfold factory. rewrite open_unfold. cbn [search_dir].
      rewrite <- Nl in M. apply chosen_in in M.
      destruct (chosen k "" n) as [|c cs] eqn:E; [contradiction|]. 
      cbv beta iota zeta. rewrite rank_files_raw by exact S0. unfold ch in *. 
      destruct (rev (sort_names (filter snd (rank_raw (sort_names (c :: cs)) size r)))); reflexivity.
  - eapply Permutation_NoDup; [symmetry; exact P|]. now apply nodup_filter.
  - intros x. rewrite <- Nl, <- chosen_in. split; intros K.
    + apply (Permutation_in _ P) in K. apply in_map_iff in K. destruct K as ([y b] & Q & K). cbn in Q. subst y.
      apply filter_In in K. destruct K as [K B]. cbn in B. subst b. apply (Permutation_in _ (sort_perm _)) in K. exact K.
    + apply (Permutation_in _ (Permutation_sym P)). apply in_map_iff. exists (x, true). split; [reflexivity|].
      apply filter_In. split; [|reflexivity]. apply (Permutation_in _ (Permutation_sym (sort_perm _))). exact K.
Qed.

Lemma C71_mpi_aux : forall k has_bigfile n num l f r size, numeral num n ->
  listing k ("snapdir_" ++ num)%string = Some l -> NoDup (map fst l) -> member l n (f, true) ->
  (forall l0 g, listing k "" = Some l0 -> ~ member l0 n g) ->
  (exists files, factory k has_bigfile None n = Hdf5 ("snapdir_" ++ num)%string files /\ In f files) /\
  (forall d files, factory k has_bigfile (Some (r, size)) n <> Hdf5 d files).
Proof.
  intros k hb n num l f r size Hn Hl Nd M No. split.
  - destruct (C71_files_aux k hb n ("snapdir_" ++ num)%string l) as (fs & E & _ & I); [|exact Nd|now exists f|].
    + exists num. split; [exact Hn|]. left. now split.
    + exists fs. split; [exact E|]. now apply I.
  - intros d files. unfold factory. rewrite open_unfold. cbn [search_dir].
    destruct (chosen k "" n) as [|c cs] eqn:E.
    + destruct hb; [destruct (open_big k n)|]; discriminate.
    + exfalso. assert (K : In c (chosen k "" n)) by (rewrite E; now left). apply chosen_in in K.
      unfold names_in in K. destruct (listing k "") as [l0|] eqn:Q; [eapply No; eauto|]. destruct K as [[] _].
Qed.

(** ** Numbers in file names *)
Lemma factory_names : forall k hb comm n d files f, factory k hb comm n = Hdf5 d files -> In f files ->
  looks_like "snap_" n f \/ looks_like "snapshot_" n f.
Proof.
  intros k hb comm n d files f H I. unfold factory in H. rewrite open_unfold in H.
  assert (C : exists b, In (f, b) (chosen k (search_dir k comm n) n)).
  { destruct (chosen k (search_dir k comm n) n) as [|c cs] eqn:E.
    - destruct hb; [destruct (open_big k n)|]; discriminate.
    - rewrite <- E in *.
      destruct comm as [[r s]|].
      + unfold rank_files in H. set (sl := slice _ _ _) in H.
        assert (Sl : forall x, In x sl -> In x (chosen k (search_dir k (Some (r, s)) n) n)).
        { intros x Hx. unfold sl, slice in Hx. 
          assert (K : In x (skipn (r * (length (sort_names (chosen k (search_dir k (Some (r, s)) n) n)) / s))
              (sort_names (chosen k (search_dir k (Some (r, s)) n) n)))).
          { match type of Hx with In _ (firstn ?a ?b) => rewrite <- (firstn_skipn a b) end. apply in_or_app. now left. }
          assert (K2 : In x (sort_names (chosen k (search_dir k (Some (r, s)) n) n))).
          { match type of K with In _ (skipn ?a ?b) => rewrite <- (firstn_skipn a b) end. apply in_or_app. now right. }
          now apply (Permutation_in _ (sort_perm _)). }
        assert (Fin : forall fs, (forall x, In x fs -> In x (chosen k (search_dir k (Some (r, s)) n) n)) ->
           forall g, In g (map fst (rev (sort_names (filter snd fs)))) -> exists b, In (g, b) (chosen k (search_dir k (Some (r, s)) n) n)).
        { intros fs Sub g Hg. apply rev_sort_in in Hg. exists true. auto. }
        match type of H with context [if (1 <=? r) && ?c then _ else _] => destruct ((1 <=? r) && c) end.
        * match type of H with context [nth_error ?a ?b] => destruct (nth_error a b) as [x|] eqn:Q end.
          -- match type of H with context [rev ?a] => destruct (rev a) eqn:T end; [discriminate|]. injection H as _ Hf. rewrite <- Hf in I. match type of T with _ = ?q => change (In f (map fst q)) in I; rewrite <- T in I end. eapply Fin; [|exact I]. intros y Hy. apply in_app_or in Hy. destruct Hy as [Hy|[<-|[]]]; [auto|].
             apply nth_error_In in Q. now apply (Permutation_in _ (sort_perm _)).
          -- discriminate.
        * match type of H with context [rev ?a] => destruct (rev a) eqn:T end; [discriminate|]. injection H as _ Hf. rewrite <- Hf in I. match type of T with _ = ?q => change (In f (map fst q)) in I; rewrite <- T in I end. eapply Fin; [|exact I]. exact Sl.
      + cbv beta iota zeta in H. match type of H with context [rev ?a] => destruct (rev a) eqn:T end; [discriminate|]. injection H as _ Hf. rewrite <- Hf in I. match type of T with _ = ?q => change (In f (map fst q)) in I; rewrite <- T in I end. apply rev_sort_in in I. exists true. now apply (Permutation_in _ (sort_perm _)). }
  destruct C as [b C]. apply chosen_in in C. destruct C as [_ [C|[_ C]]]; auto.
Qed.

Lemma reads_digits : forall s a n c, reads a s n -> forall i, String.get i s = Some c -> exists d, is_digit c d.
Proof.
  intros s a n c H. induction H as [a|a c' d s n D H IH]; intros [|i] G; cbn in G; try discriminate; eauto.
  injection G as <-. now exists d.
Qed.

Lemma dot_not_digit : forall d, ~ is_digit "." d.
Proof.
  intros d [L E]. apply (f_equal nat_of_ascii) in E. rewrite nat_ascii_embedding in E by lia. cbn in E. lia.
Qed.

Lemma same_start : forall a b m rest, (forall i, String.get i a <> Some "."%char) -> String.length b <= String.length a ->
  (a ++ m = b ++ String "." rest)%string -> a = b.
Proof.
  induction a as [|x a IH]; intros b m rest D L E.
  - destruct b; [reflexivity|cbn in L; lia].
  - destruct b as [|y b].
    + cbn in E. injection E as -> _. exfalso. apply (D 0). reflexivity.
    + cbn in E, L. injection E as -> E. f_equal. eapply IH; [|lia|exact E]. intros i. apply (D (S i)).
Qed.

Lemma C71_number_aux : forall k has_bigfile comm n d files f word own m rest,
  factory k has_bigfile comm n = Hdf5 d files -> In f files ->
  word = "snap_" \/ word = "snapshot_" -> f = (word ++ own ++ "." ++ rest)%string -> numeral own m ->
  (forall num, numeral num n -> String.length own <= String.length num) -> m = n.
Proof.
  intros k hb comm n d files f word own m rest H I W E O L.
  assert (K : exists num mid, numeral num n /\ (num ++ mid = own ++ String "." rest)%string).
  { destruct (factory_names _ _ _ _ _ _ _ H I) as [(num & mid & N & F)|(num & mid & N & F)];
      rewrite F in E; destruct W as [-> | ->]; cbn in E.
    - injection E as E. exists num, (mid ++ "hdf5")%string. now split.
    - discriminate.
    - discriminate.
    - injection E as E. exists num, (mid ++ "hdf5")%string. now split. }
  destruct K as (num & mid & N & F). specialize (L num N).
  assert (num = own).
  { eapply same_start; [|exact L|exact F]. intros i G. destruct N as (R & _).
    destruct (reads_digits _ _ _ _ R i G) as [e De]. eapply dot_not_digit; eauto. }
  subst. eapply numeral_det; eauto.
Qed.

(** A longer number. *)
Lemma numeral_snoc : forall s n c d, 100 <= n -> numeral s n -> is_digit c d ->
  numeral (s ++ String c "")%string (10 * n + d).
Proof.
  intros s n c d Hn (Rd & L & Z) D. split; [|split].
  - eapply reads_app; [exact Rd|]. econstructor; [exact D|]. constructor.
  - rewrite length_app_s. cbn. lia.
  - intros _ c' t E. destruct s as [|a s]; [cbn in L; lia|]. cbn in E. injection E as <- _.
    destruct (Nat.eq_dec (String.length (String a s)) 3) as [L3|N3].
    + intros ->. inversion Rd as [|x1 x2 e x3 x4 De Rs]; subst. pose proof (reads_bounds _ _ _ Rs) as B.
      cbn [String.length] in L3. injection L3 as L3. rewrite L3 in B.
      assert (e = 0) by (eapply digit_inj; [exact De|split; [lia|reflexivity]]). subst e. cbn in B. lia.
    + apply (Z ltac:(lia) _ _ eq_refl).
Qed.

Definition two_snapshots (a b : string) : disk :=
  mkDisk (fun d => if String.eqb d "" then Some [(a, true); (b, true)] else None) (fun _ => NoBig).

Lemma append_cancel : forall a x y : string, (a ++ x = a ++ y)%string <-> x = y.
Proof. intros. split; [intros E; apply app_inj_s in E; tauto|now intros ->]. Qed.

Lemma compare_app : forall w x y, String.compare (w ++ x)%string (w ++ y)%string = String.compare x y.
Proof. induction w; intros; cbn; [reflexivity|]. now rewrite ascii_compare_refl. Qed.

Lemma digit_gt_dot : forall c d, is_digit c d -> Ascii.compare "." c = Lt.
Proof.
  intros c d [L ->]. do 10 (destruct d as [|d]; [reflexivity|]). lia.
Qed.

Lemma C71_number_refuted_aux : forall n d num c, 100 <= n -> numeral num n -> is_digit c d ->
  numeral (num ++ String c "")%string (10 * n + d) /\
  let own := ("snap_" ++ num ++ ".hdf5")%string in
  let other := ("snap_" ++ (num ++ String c "") ++ ".hdf5")%string in
  factory (two_snapshots own other) false None n = Hdf5 "" [other; own].
Proof.
  intros n d num c Hn N D. split; [now apply numeral_snoc|]. intros own other.
  assert (Es : num = snap n) by now apply numeral_snap.
  assert (Ck : chosen (two_snapshots own other) "" n = [(own, true); (other, true)]).
  { assert (A : glob_match ("snap_" ++ snap n)%string "hdf5" own = true).
    { apply looks_glob. exists num, "."%string. split; [exact N|reflexivity]. }
    assert (B : glob_match ("snap_" ++ snap n)%string "hdf5" other = true).
    { apply looks_glob. exists num, (String c ".")%string. split; [exact N|]. unfold other. rewrite <- app_assoc_s. reflexivity. }
    unfold chosen, globbed. cbn [two_snapshots names_in listing String.eqb filter fst]. rewrite A, B. reflexivity. }
  assert (Cmp : String.leb own other = true).
  { unfold String.leb, own, other. rewrite compare_app, <- app_assoc_s, compare_app. cbn -[Ascii.compare].
    rewrite (digit_gt_dot _ _ D). reflexivity. }
  assert (Cmp' : String.leb other own = false).
  { unfold String.leb in *. rewrite String.compare_antisym. destruct (String.compare own other) eqn:E; try discriminate; [|reflexivity].
    exfalso. apply String.compare_eq_iff in E. unfold own, other in E. apply append_cancel in E.
    rewrite <- app_assoc_s in E. apply append_cancel in E. cbn in E. discriminate. }
  assert (So : sort_names [(own, true); (other, true)] = [(own, true); (other, true)]).
  { cbn [sort_names fold_right insert_name fst]. now rewrite Cmp. }
  unfold factory. rewrite open_unfold.
  assert (Sd : search_dir (two_snapshots own other) None n = ""%string) by reflexivity. rewrite Sd, Ck. cbv beta iota zeta. rewrite So.
  cbn [filter snd]. rewrite So. reflexivity.
Qed.

(** ** Names of blocks *)
Lemma hdf_name_spec : forall x, (exists h, twin h x /\ hdf_name x = h) \/ (forall y, ~ twin y x) /\ hdf_name x = x.
Proof.
  intros x. unfold hdf_name. cbn [map name_map fst snd lookup].
  repeat match goal with |- context [String.eqb x ?s] =>
    destruct (String.eqb_spec x s) as [->|]; [left; eexists; split; [constructor|reflexivity]|] end.
  right. split; [|reflexivity]. intros y T. inversion T; congruence.
Qed.

Lemma big_name_spec : forall x, (exists b, twin x b /\ big_name x = b) \/ (forall y, ~ twin x y) /\ big_name x = x.
Proof.
  intros x. unfold big_name. cbn [name_map lookup].
  repeat match goal with |- context [String.eqb x ?s] =>
    destruct (String.eqb_spec x s) as [->|]; [left; eexists; split; [constructor|reflexivity]|] end.
  right. split; [|reflexivity]. intros y T. inversion T; congruence.
Qed.

Lemma joined_fold : forall A (fs : list (string -> option (list A))) x d,
  fold_right (fun f acc => match f x, acc with Some d, Some ds => Some (d ++ ds) | _, _ => None end) (Some []) fs = Some d <->
  joined fs x d.
Proof.
  intros A fs x. unfold joined. induction fs as [|f fs IH]; intros d; cbn [fold_right].
  - split.
    + intros E. injection E as <-. exists []. split; [constructor|reflexivity].
    + intros (ds & F & ->). inversion F. reflexivity.
  - split.
    + destruct (f x) as [e|] eqn:E; [|discriminate].
      destruct (fold_right _ _ fs) as [r|] eqn:Q; [|discriminate]. intros K. injection K as <-.
      destruct (proj1 (IH r) eq_refl) as (ds & F & ->). exists (e :: ds). split; [now constructor|reflexivity].
    + intros (ds & F & ->). inversion F as [|f' e fs' ds' Fe Ft]; subst. rewrite Fe.
      rewrite (proj2 (IH (concat ds'))); [reflexivity|]. now exists ds'.
Qed.

Lemma C71_names_aux : forall A (fs : list (string -> option (list A))) bf npart size rank chunk x segment,
  same_snapshot fs bf -> (segment < 0)%Z ->
  hdf_get_data fs x segment = big_get_data bf npart size rank chunk x segment.
Proof.
  intros A fs bf npart size rank chunk x segment [T U] Sg.
  assert (Key : forall d, joined fs (hdf_name x) d <-> bf (big_name x) = Some d).
  { intros d. destruct (hdf_name_spec x) as [(h & Th & ->)|[Nh ->]]; destruct (big_name_spec x) as [(b & Tb & ->)|[Nb ->]].
    - exfalso. inversion Th; inversion Tb; subst; discriminate.
    - now apply T.
    - now apply T.
    - now apply U. }
  unfold hdf_get_data, big_get_data, bigfile_get_data, segment_to_partlist.
  rewrite (proj2 (Z.ltb_lt _ _) Sg).
  match goal with |- ?l = _ => destruct l as [d|] eqn:E end.
  - apply joined_fold in E. apply Key in E. rewrite E. reflexivity.
  - destruct (bf (big_name x)) as [d|] eqn:Q; [|reflexivity]. exfalso.
    destruct (Key d) as [_ K2]. specialize (K2 eq_refl). apply joined_fold in K2. congruence.
Qed.

Lemma C71_shadow_aux : forall A (f : string -> option (list A)) h b d, twin h b -> f b = Some d -> f h = None ->
  hdf_get_data [f] b 0 = None.
Proof.
  intros A f h b d T Fb Fh. change (f (hdf_name b) = None). destruct (hdf_name_spec b) as [(h' & T' & ->)|[N _]].
  - replace h' with h; [assumption|]. inversion T; inversion T'; subst; try discriminate; reflexivity.
  - exfalso. eapply N; eauto.
Qed.

(** ** Lengths *)
Lemma C71_length_hdf_aux : forall A (fs : list (string -> option (list A))) x s, (0 <= s)%Z ->
  hdf_get_blocklen fs x s = option_map (fun d => Z.of_nat (length d)) (hdf_get_data fs x s).
Proof.
  intros A fs x s Hs. unfold hdf_get_blocklen, hdf_get_data, py_index.
  destruct (Z.ltb_spec s 0); [lia|]. destruct (Z.leb_spec 0 s); [|lia]. cbn [andb].
  destruct (Z.ltb_spec s (Z.of_nat (length fs))) as [L|L].
  - destruct (nth_error fs (Z.to_nat s)) as [f|]; [|reflexivity]. destruct (f (hdf_name x)); reflexivity.
  - assert (E : nth_error fs (Z.to_nat s) = None) by (apply nth_error_None; lia). rewrite E.
    destruct (_ && false) eqn:Q; [rewrite andb_false_r in Q; discriminate|]. reflexivity.
Qed.

Lemma C71_length_big_aux : forall A (bf : string -> option (list A)) npart size rank chunk x s b,
  (0 < size)%Z -> (0 <= rank < size)%Z -> (0 < chunk)%Z -> (s < n_segments npart size rank chunk)%Z ->
  bf (big_name x) = Some b -> Z.of_nat (length b) = npart ->
  big_get_blocklen bf npart size rank chunk x s =
  option_map (fun d => Z.of_nat (length d)) (big_get_data bf npart size rank chunk x s).
Proof.
  intros A bf npart size rank chunk x s b Hs Hr Hc Hg B L.
  unfold big_get_blocklen, big_get_data, bigfile_get_data, segment_to_partlist. rewrite B.
  destruct (Z.ltb_spec s 0) as [K|K]; cbn [option_map]; [f_equal; cbn; lia|]. f_equal.
  set (one := (parts_rank npart size rank / n_segments npart size rank chunk)%Z).
  set (first := first_part_rank npart size rank).
  assert (Hp : (0 <= parts_rank npart size rank)%Z) by (apply parts_rank_nonneg; lia).
  assert (Hn : (1 <= n_segments npart size rank chunk)%Z) by (unfold n_segments; lia).
  assert (Ho : (0 <= one)%Z) by (apply Z.div_pos; lia).
  assert (Hq : (one * n_segments npart size rank chunk <= parts_rank npart size rank)%Z).
  { unfold one. rewrite Z.mul_comm. apply Z.mul_div_le. lia. }
  assert (Hf : (0 <= first /\ first + parts_rank npart size rank <= npart)%Z).
  { unfold first. replace rank with (Z.of_nat (Z.to_nat rank)) by lia.
    split; [apply first_part_rank_mono; lia|]. rewrite <- first_part_rank_S.
    assert (Mo : forall i j, i <= j -> (first_part_rank npart size (Z.of_nat i) <= first_part_rank npart size (Z.of_nat j))%Z).
    { intros i j Hij. induction Hij; [lia|]. pose proof (first_part_rank_mono npart size m Hs ltac:(lia)). lia. }
    pose proof (first_part_rank_size npart size Hs ltac:(lia)) as Fs.
    specialize (Mo (S (Z.to_nat rank)) (Z.to_nat size) ltac:(lia)). rewrite (Z2Nat.id size) in Mo by lia. lia. }
  rewrite slice_length by nia. nia.
Qed.

Lemma C71_length_refuted_aux :
  (forall A (f g : string -> option (list A)) x d e, f (hdf_name x) = Some d -> g (hdf_name x) = Some e -> d <> [] ->
     exists all, hdf_get_data [f; g] x (-1) = Some all /\ all = d ++ e /\
       hdf_get_blocklen [f; g] x (-1) = Some (Z.of_nat (length e)) /\ length e <> length all) /\
  (forall A (bf : string -> option (list A)) npart size rank chunk x s, (0 <= s)%Z -> bf (big_name x) = None ->
     big_get_data bf npart size rank chunk x s = None /\
     big_get_blocklen bf npart size rank chunk x s <> None).
Proof.
  split.
  - intros A f g x d e Hf Hg N. exists (d ++ e). unfold hdf_get_data, hdf_get_blocklen. cbn -[hdf_name]. rewrite Hf, Hg, app_nil_r.
    split; [reflexivity|]. split; [reflexivity|]. split; [change (Pos.to_nat 1) with 1; cbn -[hdf_name]; now rewrite Hg|]. rewrite app_length. destruct d; [contradiction|cbn; lia].
  - intros A bf npart size rank chunk x s Hs B. unfold big_get_data, big_get_blocklen, segment_to_partlist. rewrite B.
    destruct (Z.ltb_spec s 0); [lia|]. split; [reflexivity|discriminate].
Qed.

(** Proofs about the cache: in-place statistics and replaced sightlines. *)
From Coq Require Import ZArith String List Reals Lra Lia Arith.
From Verif Require Import AbsorptionSpec FilterModel FilterSpec FilterProofs ReplaceModel ReplaceSpec ReplaceProofs StoreModel StoreSpec StoreProofs StoreProofs2.
Import ListNotations.
Local Open Scope R_scope.

Lemma Forall2_concat_len : forall (P : list R -> list R -> Prop) a b, (forall r r', P r r' -> length r' = length r) -> Forall2 P a b -> length (concat b) = length (concat a).
Proof. intros P a b HP F. induction F as [|r r' a b HR F IH]; [reflexivity|]. cbn [concat]. rewrite !app_length, IH, (HP _ _ HR). reflexivity. Qed.

Lemma C21_filter_aux : forall (H : Type) (fresh : key -> list (list R)) weighted (h : H) (d : disk (list (list R)) H) e i l thresh r x fuel,
  let a := fresh (KTau e i l) in
  (1 < length (concat a))%nat -> Forall (fun r => r <> [] /\ (length r <= fuel)%nat) a ->
  effective_tau a + 1 / 4 <= thresh -> 0 < thresh -> In r a -> In x r -> thresh < x ->
  exists b o1, statistic (fun t : list (list R) => length (concat t)) fresh (main d) (fun t => match filter_tau fuel t (Some thresh) with Done t' => Some t' | _ => None end)
      e i l {| hdr := h; cache := [] |} = Some (Ok (b, o1)) /\
    b <> a /\ (forall y, In y (concat b) -> y <= thresh) /\
    (exists o2, access (fun t => length (concat t)) fresh weighted (main d) false (KTau e i l) o1 = Ok (b, o2)) /\
    (exists o2 d' F, save (fun t => length (concat t)) d o1 = Ok (o2, d') /\ main d' = Good F /\ stored F (KTau e i l) b).
Proof.
  intros H fresh weighted h d e i l thresh r x fuel a Sz Hr Ht Hp Ir Ix Hx.
  destruct (C25_array_aux a thresh fuel) as (b & Fb & Fm); try assumption.
  { intros C. rewrite C in Ir. contradiction. }
  assert (Lb : length (concat b) = length (concat a)) by (apply (Forall2_concat_len _ _ _ (fun r r' (P : _ /\ _) => proj1 (proj1 P)) Fm)).
  assert (Le : forall y, In y (concat b) -> y <= thresh).
  { intros y Iy. clear - Fm Iy. revert Iy. induction Fm as [|r0 r1 a0 b0 (_ & HR) F IH]; [contradiction|]. cbn [concat]. intros Iy. apply in_app_or in Iy. destruct Iy; auto. }
  assert (Nb : b <> a). { intros C. apply (Rlt_not_le _ _ Hx). apply Le. rewrite C. apply in_concat. exists r. split; assumption. }
  set (k := KTau e i l). set (sz := fun t : list (list R) => length (concat t)).
  exists b, (upd (upd {| hdr := h; cache := [] |} k a) k b). split.
  { unfold statistic, get_plain, really_load. cbn [cache get]. fold k. change (fresh k) with a. rewrite Fb. reflexivity. }
  split; [assumption|]. split; [assumption|].
  assert (E1 : upd (upd {| hdr := h; cache := [] |} k a) k b = {| hdr := h; cache := [(k, b)] |}).
  { unfold upd. cbn [cache hdr set]. destruct (key_dec k k); [reflexivity|contradiction]. }
  rewrite E1. split.
  - eexists. unfold access, k, get_plain, really_load. cbn [cache get]. fold k. destruct (key_dec k k); [|contradiction].
    change (sz b) with (length (concat b)). rewrite Lb. destruct (Nat.ltb_spec 1 (length (concat a))); [|lia]. cbn [cache get]. destruct (key_dec k k); [|contradiction]. reflexivity.
  - exists {| hdr := h; cache := [(k, b)] |}. eexists. exists (contents {| hdr := h; cache := [(k, b)] |}). split.
    + apply save_done. unfold load_before_save, load_all. cbn [cache map fst filter in_group k load_keys].
      unfold really_load. cbn [cache get]. fold k. destruct (key_dec k k); [|contradiction]. change (sz b) with (length (concat b)). rewrite Lb.
      destruct (Nat.ltb_spec 1 (length (concat a))); [|lia]. cbn [cache map fst filter in_group k load_keys]. reflexivity.
    + split; [reflexivity|]. apply contents_stored; [repeat constructor; intros []|]. cbn [cache get]. destruct (key_dec k k); [reflexivity|contradiction].
Qed.

(** ** C23 *)
Section Replaced.
Context {A H : Type} (size : A -> nat).
Variable fresh : key -> A.
Variable weighted : key -> A -> A.

Local Open Scope Z_scope.
Lemma C23_aux : forall (f : fstate A H) (o : obj A H) h colden, one_each o -> (1 < size colden)%nat ->
  (exists o', access size fresh weighted f false (KPlain ColDen "H" 1) (replaced h colden o) = Ok (colden, o')) /\
  (forall k a, cached o k a -> (1 < size a)%nat -> k <> KPlain ColDen "H" 1 ->
     exists o', access size fresh weighted f false k (replaced h colden o) = Ok (a, o')) /\
  (forall k, (forall a, ~ cached o k a) -> k <> KPlain ColDen "H" 1 -> (forall d e i, k <> KDerived d e i) ->
     exists o', access size fresh weighted f false k (replaced h colden o) = Ok (fresh k, o')).
Proof.
  intros f o h colden N Sc. set (kh := KPlain ColDen "H" 1).
  assert (G : forall k, get key_dec (cache (replaced h colden o)) k = if key_dec k kh then Some colden else get key_dec (cache o) k) by (intros; apply get_set).
  assert (Hit : forall k a, get key_dec (cache (replaced h colden o)) k = Some a -> (1 < size a)%nat ->
            exists o', access size fresh weighted f false k (replaced h colden o) = Ok (a, o')).
  { intros k a Ga Sa. exists (replaced h colden o). destruct k as [e i l|p e i|dd e i]; cbn [access]; unfold get_plain, get_derived, really_load; rewrite Ga;
      destruct (Nat.ltb_spec 1 (size a)); try lia; rewrite Ga; reflexivity. }
  split; [|split].
  - apply Hit; [|assumption]. rewrite G. destruct (key_dec kh kh); [reflexivity|contradiction].
  - intros k a C Sa Nk. apply Hit; [|assumption]. rewrite G. destruct (key_dec k kh); [contradiction|]. apply In_get; assumption.
  - intros k C Nk Nd. assert (Gn : get key_dec (cache (replaced h colden o)) k = None).
    { rewrite G. destruct (key_dec k kh); [contradiction|]. destruct (get key_dec (cache o) k) as [a|] eqn:Ga; [|reflexivity]. exfalso. apply (C a). apply (get_In key_dec). assumption. }
    exists (upd (replaced h colden o) k (fresh k)). destruct k as [e i l|p e i|dd e i]; [| |exfalso; eapply Nd; reflexivity]; cbn [access]; unfold get_plain, really_load; rewrite Gn; reflexivity.
Qed.
End Replaced.

(** Replacing by another species: its column density is what is found under H 1. *)
Lemma C23_species_aux : forall (P : Type) (col : string -> Z -> P -> Z -> list R) fresh weighted (f : fstate (list (option (list R))) _) (o : obj (list (option (list R))) (list (option P) * list Z))
    fuel th n axis gen a r elem ion,
  (2 <= n <= length axis)%nat -> (forall j, length (gen j) = length axis) -> (forall x, In x axis -> x = a) -> one_each o ->
  replace_not_DLA P (col elem ion) fuel th n axis gen = Done r ->
  exists positions o', length positions = n /\ new_cofm r = map Some positions /\
    access (fun t => length t) fresh weighted f false (KPlain ColDen "H" 1) (replaced (new_cofm r, new_axis r) (new_colden r) o)
      = Ok (map (fun p => Some (col elem ion p a)) positions, o').
Proof.
  intros P col fresh weighted f o fuel th n axis gen a r elem ion Hn Hl Ha N Rp.
  destruct (C22_consistent_aux P (col elem ion) fuel th n axis gen a r ltac:(lia) Hl Ha Rp) as (_ & _ & pos & Lp & Cp & Cc & _).
  exists pos. destruct (C23_aux (fun t : list (option (list R)) => length t) fresh weighted f o (new_cofm r, new_axis r) (new_colden r) N) as ((o' & E) & _).
  { rewrite Cc, map_length. lia. }
  exists o'. split; [assumption|]. split; [assumption|]. rewrite E, Cc. reflexivity.
Qed.

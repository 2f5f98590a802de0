(** Proofs about the line table parser. *)
From Coq Require Import ZArith List Bool Ascii String Lia.
From Verif Require Import LineModel LineSpec.
Import ListNotations.
Local Open Scope Z_scope.

(** ** Roman numerals *)

Lemma roman_digit_le : forall c v, roman_digit c = Some v -> v <= 1000.
Proof.
  intros [[] [] [] [] [] [] [] []] v H; simpl in H; inversion H; lia.
Qed.

Lemma roman_values_le : forall s vs, roman_values s = Some vs -> Forall (fun v => v <= 1000) vs.
Proof.
  induction s as [|c s IH]; intros vs H; simpl in H; [inversion H; constructor|].
  destruct (roman_digit c) eqn:E; [|discriminate].
  destruct (roman_values s) eqn:E'; [|discriminate]. inversion H; subst.
  constructor; eauto using roman_digit_le.
Qed.

Lemma fold_add_shift : forall l a, fold_left Z.add l a = a + fold_left Z.add l 0.
Proof.
  induction l as [|x l IH]; intros a; simpl; [lia|]. rewrite IH, (IH x). lia.
Qed.

Lemma roman_M : forall s, roman_to_int ("M"%char :: s) = option_map (Z.add 1000) (roman_to_int s).
Proof.
  intros s. unfold roman_to_int. cbn [roman_values roman_digit].
  destruct (roman_values s) as [vs|] eqn:E; [|reflexivity]. cbn [option_map]. f_equal.
  pose proof (roman_values_le _ _ E) as H. destruct vs as [|w vs].
  - reflexivity.
  - inversion H; subst. change (roman_places (1000 :: w :: vs)) with
      ((if 1000 <? w then 1000 * -1 else 1000) :: roman_places (w :: vs)).
    destruct (Z.ltb_spec 1000 w); [lia|]. cbn [fold_left]. rewrite fold_add_shift. lia.
Qed.

Lemma roman_repeat_M : forall k s n, roman_to_int s = Some n ->
  roman_to_int (repeat "M"%char k ++ s) = Some (1000 * Z.of_nat k + n).
Proof.
  induction k as [|k IH]; intros s n H; simpl repeat; simpl app.
  - rewrite H. f_equal; lia.
  - rewrite roman_M, (IH s n H). unfold option_map. apply f_equal. lia.
Qed.

Definition small_ok (r : Z) : bool :=
  match roman_to_int (numeral r) with Some v => v =? r | None => false end.

Lemma small_all : forallb (fun i => small_ok (Z.of_nat i)) (seq 0 1000) = true.
Proof. vm_compute. reflexivity. Qed.

Lemma roman_small : forall r, 0 <= r < 1000 -> roman_to_int (numeral r) = Some r.
Proof.
  intros r Hr. pose proof small_all as H. rewrite forallb_forall in H.
  specialize (H (Z.to_nat r)). rewrite Z2Nat.id in H by lia. unfold small_ok in H.
  specialize (H ltac:(apply in_seq; lia)).
  destruct (roman_to_int (numeral r)); [|discriminate]. apply Z.eqb_eq in H. congruence.
Qed.

Lemma numeral_split : forall n, 0 <= n ->
  numeral n = repeat "M"%char (Z.to_nat (n / 1000)) ++ numeral (n mod 1000).
Proof.
  intros n Hn. pose proof (Z.mod_pos_bound n 1000 ltac:(lia)) as Hm.
  pose proof (Z.div_mod n 1000 ltac:(lia)) as Hd.
  unfold numeral. rewrite (Z.div_small (n mod 1000) 1000) by lia. simpl repeat. simpl app at 4.
  set (q := n / 1000) in *. set (r := n mod 1000) in *. f_equal.
  replace (n / 100) with (10 * q + r / 100)
    by (rewrite Hd; replace (1000 * q + r) with (r + 10 * q * 100) by lia;
        rewrite Z.div_add by lia; lia).
  replace (n / 10) with (100 * q + r / 10)
    by (rewrite Hd; replace (1000 * q + r) with (r + 100 * q * 10) by lia;
        rewrite Z.div_add by lia; lia).
  rewrite Hd at 1.
  replace ((10 * q + r / 100) mod 10) with (r / 100 mod 10)
    by (replace (10 * q + r / 100) with (r / 100 + q * 10) by lia; rewrite Z.mod_add by lia; auto).
  replace ((100 * q + r / 10) mod 10) with (r / 10 mod 10)
    by (replace (100 * q + r / 10) with (r / 10 + 10 * q * 10) by lia; rewrite Z.mod_add by lia; auto).
  replace ((1000 * q + r) mod 10) with (r mod 10)
    by (replace (1000 * q + r) with (r + 100 * q * 10) by lia; rewrite Z.mod_add by lia; auto).
  reflexivity.
Qed.

Lemma roman_canonical : forall n, 0 <= n -> roman_to_int (numeral n) = Some n.
Proof.
  intros n Hn. pose proof (Z.mod_pos_bound n 1000 ltac:(lia)).
  rewrite numeral_split by auto.
  rewrite (roman_repeat_M _ _ (n mod 1000)) by (apply roman_small; lia).
  f_equal. pose proof (Z.div_mod n 1000 ltac:(lia)).
  assert (0 <= n / 1000) by (apply Z.div_pos; lia). lia.
Qed.

Lemma roman_values_none : forall s,
  roman_values s = None <-> exists c, In c s /\ roman_digit c = None.
Proof.
  induction s as [|c s IH]; simpl.
  - split; [discriminate|intros [c [[] _]]].
  - destruct (roman_digit c) eqn:E.
    + destruct (roman_values s) eqn:E'.
      * split; [discriminate|]. intros [d [[<-|Hd] H]]; [congruence|].
        assert (Some l = None) by (apply IH; eauto). discriminate.
      * split; auto. intros _. destruct (proj1 IH eq_refl) as [d [Hd H]]. eauto.
    + split; auto. intros _. eauto.
Qed.

(** The numerals accepted are the strings over the seven letters. *)
Definition roman_letter (c : ascii) : Prop := In c (S_ "MDCLXVI").

Lemma roman_letter_digit : forall c, roman_letter c <-> roman_digit c <> None.
Proof.
  intros c. unfold roman_letter. split.
  - intros H. simpl in H. repeat destruct H as [<-|H]; try (simpl; congruence); destruct H.
  - destruct c as [[] [] [] [] [] [] [] []]; simpl; intros H; try congruence; auto 10.
Qed.

Lemma roman_accepts : forall s, (exists n, roman_to_int s = Some n) <-> Forall roman_letter s.
Proof.
  intros s. unfold roman_to_int. split.
  - intros [n H]. apply Forall_forall. intros c Hc. apply roman_letter_digit. intros E.
    assert (roman_values s = None) by (apply roman_values_none; eauto).
    rewrite H0 in H. discriminate.
  - intros H. destruct (roman_values s) eqn:E; [eauto|].
    apply roman_values_none in E. destruct E as [c [Hc E]].
    rewrite Forall_forall in H. apply H in Hc. apply roman_letter_digit in Hc. congruence.
Qed.

(** ** Characters *)

Lemma upper_class : forall c, is_upper c = true ->
  is_space c = false /\ is_lower c = false /\ is_newline c = false.
Proof.
  intros c. unfold is_upper, is_space, is_lower, is_newline. generalize (nat_of_ascii c). intros n H.
  apply andb_true_iff in H. destruct H as [H1 H2]. apply Nat.leb_le in H1. apply Nat.leb_le in H2.
  repeat split.
  - destruct (Nat.leb_spec n 13); [lia|]. destruct (Nat.leb_spec n 32); [lia|].
    rewrite !andb_false_r. auto.
  - destruct (Nat.leb_spec 97 n); [lia|]. auto.
  - apply Nat.eqb_neq. lia.
Qed.

Lemma lower_class : forall c, is_lower c = true -> is_space c = false.
Proof.
  intros c. unfold is_space, is_lower. generalize (nat_of_ascii c). intros n H.
  apply andb_true_iff in H. destruct H as [H1 H2]. apply Nat.leb_le in H1. apply Nat.leb_le in H2.
  destruct (Nat.leb_spec n 13); [lia|]. destruct (Nat.leb_spec n 32); [lia|].
  rewrite !andb_false_r. auto.
Qed.

Lemma roman_upper : forall c, roman_letter c -> is_upper c = true.
Proof.
  intros c H. unfold roman_letter in H. simpl in H.
  repeat destruct H as [<-|H]; try reflexivity; destruct H.
Qed.

Lemma numeral_letters : forall n, 0 <= n -> Forall roman_letter (numeral n).
Proof. intros n Hn. apply roman_accepts. exists n. apply roman_canonical; auto. Qed.

Lemma numeral_nonempty : forall n, 0 < n -> numeral n <> [].
Proof.
  intros n Hn E. pose proof (roman_canonical n ltac:(lia)) as H. rewrite E in H.
  simpl in H. inversion H. lia.
Qed.

(** ** Species *)

Lemma strip_upper : forall s, Forall (fun c => is_space c = false) s -> strip_spaces s = s.
Proof.
  induction s as [|c s IH]; intros H; simpl; auto. inversion H; subst. rewrite H2. simpl.
  f_equal. auto.
Qed.

Lemma strip_app : forall a b, strip_spaces (a ++ b) = strip_spaces a ++ strip_spaces b.
Proof. intros. apply filter_app. Qed.

Lemma strip_repeat : forall k, strip_spaces (repeat " "%char k) = [].
Proof. induction k; simpl; auto. Qed.

Lemma ion_field : forall r rest, r <> [] -> Forall roman_letter r -> (List.length r <= 4)%nat ->
  exists u a b c, pad 4 r ++ rest = u :: a :: b :: c :: rest /\ pad 4 r = [u; a; b; c] /\
    is_upper u = true /\ is_newline a = false /\ is_newline b = false /\ is_newline c = false.
Proof.
  intros r rest Hne Hl Hlen. unfold pad.
  assert (N : forall c, roman_letter c -> is_newline c = false)
    by (intros c Hc; apply upper_class, roman_upper; auto).
  destruct r as [|u r]; [congruence|]. inversion Hl as [|? ? Hu Hr]; subst.
  pose proof (roman_upper u Hu) as Hup.
  destruct r as [|a r]; [|inversion Hr as [|? ? Ha Hr']; subst; destruct r as [|b r];
    [|inversion Hr' as [|? ? Hb Hr'']; subst; destruct r as [|c r];
      [|inversion Hr'' as [|? ? Hc Hr''']; subst; destruct r; [|simpl in Hlen; lia]]]];
  cbn -[is_upper is_newline]; do 4 eexists; (split; [reflexivity|]); (split; [reflexivity|]);
  repeat split; auto.
Qed.

Lemma find_species_ok : forall sp n rest, symbol sp -> 0 < n -> (List.length (numeral n) <= 4)%nat ->
  find_species (pad 2 sp ++ pad 4 (numeral n) ++ rest) = Some (sp, n).
Proof.
  intros sp n rest Hsp Hn Hlen.
  destruct (ion_field (numeral n) rest (numeral_nonempty n Hn) (numeral_letters n ltac:(lia)) Hlen)
    as [u [a [b [c [E1 [E2 [Hu [Ha [Hb Hc]]]]]]]]].
  rewrite E1.
  assert (Hstrip : strip_spaces [u; a; b; c] = numeral n).
  { rewrite <- E2. unfold pad. rewrite strip_app, strip_repeat, app_nil_r. apply strip_upper.
    eapply Forall_impl; [|apply numeral_letters; lia].
    intros x Hx. apply upper_class, roman_upper; auto. }
  destruct (upper_class u Hu) as [Hus [Hul _]].
  destruct Hsp as [[x [-> Hx]]|[x [y [-> [Hx Hy]]]]].
  - change (pad 2 [x]) with [x; " "%char]. cbn [app]. unfold find_species, match_species.
    rewrite Hx. cbn [take_space]. change (is_space " ") with true. cbv iota. rewrite Hus, Hul.
    rewrite Hu, Ha, Hb, Hc. cbn [negb andb app]. rewrite Hstrip.
    rewrite roman_canonical by lia. f_equal. f_equal.
    cbn [strip_spaces filter]. destruct (upper_class x Hx) as [-> _]. reflexivity.
  - change (pad 2 [x; y]) with [x; y]. cbn [app]. unfold find_species, match_species.
    rewrite Hx. cbn [take_space]. rewrite (lower_class y Hy), Hy.
    rewrite Hu, Ha, Hb, Hc. cbn [negb andb app]. rewrite Hstrip.
    rewrite roman_canonical by lia. f_equal. f_equal.
    cbn [strip_spaces filter]. destruct (upper_class x Hx) as [-> _].
    rewrite (lower_class y Hy). reflexivity.
Qed.

(** ** Table *)

Lemma str_eqb_eq : forall a b, str_eqb a b = true <-> a = b.
Proof.
  induction a as [|x a IH]; intros [|y b]; simpl; try (split; congruence).
  rewrite andb_true_iff, IH, Ascii.eqb_eq. split; [intros [-> ->]; auto|intros E; inversion E; auto].
Qed.

Lemma key_eqb_eq : forall a b, key_eqb a b = true <-> a = b.
Proof.
  intros [[s i] w] [[s' i'] w']. simpl.
  rewrite !andb_true_iff, str_eqb_eq, !Z.eqb_eq. split; [intros [[-> ->] ->]; auto|].
  intros E; inversion E; auto.
Qed.

Section Table.
Variable Line : Type.
Variable parse : str -> option (Z * Line).

Lemma lookup_assign : forall t k v k',
  lookup Line k' (assign Line k v t) = if key_eqb k' k then Some v else lookup Line k' t.
Proof.
  induction t as [|[k0 v0] t IH]; intros k v k'; simpl.
  - auto.
  - destruct (key_eqb k k0) eqn:E.
    + apply key_eqb_eq in E. subst k0. simpl. destruct (key_eqb k' k); auto.
    + simpl. destruct (key_eqb k' k0) eqn:E'.
      * apply key_eqb_eq in E'. subst k'. destruct (key_eqb k0 k) eqn:E''; auto.
        apply key_eqb_eq in E''. subst.
        assert (key_eqb k k = true) by (apply key_eqb_eq; auto). congruence.
      * apply IH.
Qed.

(** The entry a line of the file contributes, if any. *)
Definition entry (line : str) : option ((str * Z * Z) * Line) :=
  match find_species line with
  | None => None
  | Some (sp, ion) =>
      if negb (existsb (str_eqb sp) known_species) || (ion <? 0) then None
      else match parse line with None => None | Some (w, l) => Some ((sp, ion, w), l) end
  end.

Lemma read_line_none : forall lines, fold_left (read_line Line parse) lines None = None.
Proof. induction lines; simpl; auto. Qed.

Lemma read_line_entry : forall t t' line, read_line Line parse (Some t) line = Some t' ->
  forall k, lookup Line k t' =
    match entry line with
    | Some (k', v) => if key_eqb k k' then Some v else lookup Line k t
    | None => lookup Line k t
    end.
Proof.
  intros t t' line H k. unfold read_line, entry in *.
  destruct (find_species line) as [[sp ion]|]; [|inversion H; subst; auto].
  destruct (_ || _); [inversion H; subst; auto|].
  destruct (parse line) as [[w l]|]; [|discriminate]. inversion H; subst. apply lookup_assign.
Qed.

Lemma read_vpfit_last : forall lines t0 t k v,
  fold_left (read_line Line parse) lines (Some t0) = Some t ->
  (lookup Line k t = Some v <->
   (exists pre line post, lines = pre ++ line :: post /\ entry line = Some (k, v) /\
      forall l' v', In l' post -> entry l' <> Some (k, v')) \/
   (lookup Line k t0 = Some v /\ forall l' v', In l' lines -> entry l' <> Some (k, v'))).
Proof.
  induction lines as [|line lines IH]; intros t0 t k v H.
  - simpl in H. inversion H; subst. split.
    + intros E. right. split; auto.
    + intros [[pre [l [post [E _]]]]|[E _]]; auto. destruct pre; discriminate.
  - cbn [fold_left] in H. destruct (read_line Line parse (Some t0) line) as [t1|] eqn:E1;
      [|rewrite read_line_none in H; discriminate].
    rewrite (IH t1 t k v H). rewrite (read_line_entry _ _ _ E1 k). clear IH H E1. split.
    + intros [[pre [l [post [-> [He Hp]]]]]|[He Hp]].
      * left. exists (line :: pre), l, post. auto.
      * destruct (entry line) as [[k' v']|] eqn:Ee.
        { destruct (key_eqb k k') eqn:Ek.
          - apply key_eqb_eq in Ek. subst k'. inversion He; subst v'.
            left. exists [], line, lines. auto.
          - right. split; auto. intros l' w [<-|Hl]; auto. rewrite Ee. intros X. inversion X; subst.
            assert (key_eqb k k = true) by (apply key_eqb_eq; auto). congruence. }
        { right. split; auto. intros l' w [<-|Hl]; auto. congruence. }
    + intros [[pre [l [post [E [He Hp]]]]]|[He Hp]].
      * destruct pre as [|p pre]; simpl in E; inversion E; subst.
        { right. rewrite He. assert (key_eqb k k = true) by (apply key_eqb_eq; auto).
          rewrite H. auto. }
        { left. exists pre, l, post. auto. }
      * right. split; [|intros; apply Hp; right; auto].
        specialize (Hp line). destruct (entry line) as [[k' v']|] eqn:Ee; auto.
        destruct (key_eqb k k') eqn:Ek; auto. apply key_eqb_eq in Ek. subst k'.
        specialize (Hp v' (or_introl eq_refl)). congruence.
Qed.

Lemma entry_describes : forall line sp ion w l,
  entry line = Some ((sp, ion, w), l) <-> describes parse line sp ion w l.
Proof.
  intros line sp ion w l. unfold entry, describes.
  destruct (find_species line) as [[sp' ion']|].
  2:{ split; [discriminate|intros [H _]; discriminate]. }
  destruct (existsb (str_eqb sp') known_species) eqn:E1; simpl.
  - apply existsb_exists in E1. destruct E1 as [x [Hx E1]]. apply str_eqb_eq in E1. subst x.
    destruct (Z.ltb_spec ion' 0).
    + split; [discriminate|]. intros [H1 [_ [H2 _]]]. inversion H1; subst. lia.
    + destruct (parse line) as [[w' l']|].
      * split.
        { intros E; inversion E; subst. auto. }
        { intros [H1 [_ [_ H2]]]. inversion H1; inversion H2; subst. auto. }
      * split; [discriminate|]. intros [_ [_ [_ H2]]]. discriminate.
  - split; [discriminate|]. intros [H1 [H2 _]]. inversion H1; subst.
    assert (existsb (str_eqb sp) known_species = true); [|congruence].
    apply existsb_exists. exists sp. split; auto. apply str_eqb_eq. auto.
Qed.

Lemma C51_last_aux : forall lines t sp ion w l,
  read_vpfit Line parse lines = Some t ->
  (lookup Line (sp, ion, w) t = Some l <->
   exists pre line post, lines = pre ++ line :: post /\ describes parse line sp ion w l /\
     forall line' l', In line' post -> ~ describes parse line' sp ion w l').
Proof.
  intros lines t sp ion w l H. unfold read_vpfit in H.
  rewrite (read_vpfit_last lines [] t (sp, ion, w) l H). split.
  - intros [[pre [x [post [E [He Hp]]]]]|[He _]]; [|discriminate].
    exists pre, x, post. split; auto. split; [apply entry_describes; auto|].
    intros line' l' Hin Hd. apply entry_describes in Hd. eapply Hp; eauto.
  - intros [pre [x [post [E [He Hp]]]]]. left. exists pre, x, post. split; auto.
    split; [apply entry_describes; auto|]. intros l' v' Hin Hd.
    apply entry_describes in Hd. eapply Hp; eauto.
Qed.
End Table.

Lemma C51_collision_aux : forall Line (parse : str -> option (Z * Line)) strong weak,
  let l1 := S_ "O I    988.7734 0.0465  2.26E8  M03" in
  let l2 := S_ "O I    988.5778 0.000553  6.29E6  M03" in
  parse l1 = Some (988, strong) -> parse l2 = Some (988, weak) ->
  exists t, read_vpfit Line parse [l1; l2] = Some t /\
    lookup Line (S_ "O", 1, 988) t = Some weak /\ List.length t = 1%nat.
Proof.
  intros Line parse strong weak l1 l2 H1 H2. unfold read_vpfit. cbn [fold_left].
  unfold read_line at 2. change (find_species l1) with (Some (S_ "O", 1)).
  change (negb (existsb (str_eqb (S_ "O")) known_species) || (1 <? 0)) with false. cbv iota.
  rewrite H1. unfold read_line. change (find_species l2) with (Some (S_ "O", 1)).
  change (negb (existsb (str_eqb (S_ "O")) known_species) || (1 <? 0)) with false. cbv iota.
  rewrite H2. eexists. split; [reflexivity|]. split; reflexivity.
Qed.

Lemma C34_malformed_aux : exists s n, roman_to_int s = Some n /\ forall m, 0 <= m -> numeral m <> s.
Proof.
  exists (S_ "IL"), 49. split; [reflexivity|]. intros m Hm E.
  assert (H : roman_to_int (numeral m) = roman_to_int (S_ "IL")) by congruence.
  rewrite roman_canonical in H by auto. change (roman_to_int (S_ "IL")) with (Some 49) in H.
  inversion H; subst m. discriminate E.
Qed.

Lemma C34_long_aux : exists sp n rest, symbol sp /\ 0 < n /\ In sp known_species /\
  find_species (pad 2 sp ++ numeral n ++ rest) = Some (sp, 17) /\ n = 18.
Proof.
  exists (S_ "Fe"), 18, (S_ " 14.208"). split.
  { right. do 2 eexists. split; [reflexivity|]. split; reflexivity. }
  split; [lia|]. split; [simpl; auto 20|]. split; reflexivity.
Qed.

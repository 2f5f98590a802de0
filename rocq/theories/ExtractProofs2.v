(** Further proofs about the command line extractor: files without gas, and the numbers used for random sightlines. *)
From Coq Require Import Ascii String.
From Coq Require Import Reals List Bool ZArith Arith Lia Lra.
From Verif Require Import ExtractModel ExtractSpec ExtractProofs.
Import ListNotations.
Local Open Scope nat_scope.

Definition has_gas (f : file) : bool := match f with Hdf5 _ => true | _ => false end.

Lemma loop_no_gas : forall disk base n fuel k done, n <= 11 -> k < n -> n <= fuel + k ->
  (forall j, j < n -> disk (member base j) = NoGroup \/ exists p, disk (member base j) = Hdf5 p) -> disk (member base n) = Missing -> n <= 10 ->
  file_loop disk (S (length base)) fuel k (member base k) done
  = Finished (done ++ map (member base) (filter (fun j => has_gas (disk (member base j))) (seq (S k) (n - S k)))).
Proof.
  intros disk base n. induction fuel as [|fuel IH]; intros k done N K L F M N10; [lia|]. cbn [file_loop]. cbv zeta.
  assert (RM := replace_member base k). rewrite !number_small in RM by lia. rewrite RM.
  destruct (Nat.eq_dec (S k) n) as [E|NE].
  - rewrite E, M. rewrite Nat.sub_diag. cbn [seq filter map]. rewrite app_nil_r. reflexivity.
  - replace (n - S k) with (S (n - S (S k))) by lia. cbn [seq filter]. destruct (F (S k) ltac:(lia)) as [E|[p E]]; rewrite E; cbn [has_gas].
    + apply IH; try assumption; lia.
    + rewrite IH by (try assumption; lia). cbn [map]. rewrite <- app_assoc. reflexivity.
Qed.

Lemma C47_no_gas_aux : forall disk base indir n fuel, plain base -> names_set disk base indir -> 0 < n <= 10 -> n <= fuel ->
  (exists p, disk (member base 0) = Hdf5 p) ->
  (forall j, j < n -> disk (member base j) = NoGroup \/ exists p, disk (member base j) = Hdf5 p) -> disk (member base n) = Missing ->
  exists read, extract disk indir fuel = Finished (map (member base) read) /\
    forall k, In k read <-> 1 <= k < n /\ exists p, disk (member base k) = Hdf5 p.
Proof.
  intros disk base indir n fuel P NS N FU E0 F M. exists (filter (fun j => has_gas (disk (member base j))) (seq 1 (n - 1))). split.
  - rewrite (extract_loop disk base indir fuel P NS E0). rewrite (loop_no_gas disk base n fuel 0 []) by (try assumption; lia). reflexivity.
  - intros k. rewrite filter_In, in_seq. split.
    + intros [K G]. split; [lia|]. unfold has_gas in G. destruct (disk (member base k)); try discriminate. eexists. reflexivity.
    + intros [K [p E]]. split; [lia|]. rewrite E. reflexivity.
Qed.

Local Open Scope R_scope.
Lemma int_of_spec : forall x, 0 <= x -> (forall k, int_of x = k -> IZR k <= x < IZR k + 1 \/ (IZR k + 1 = x)).
Proof.
  intros x X k K. unfold int_of in K. destruct (archimed x) as [A B]. subst k. rewrite minus_IZR. lra.
Qed.

Lemma draw_axis_spec : forall u fuel pos axis p, (forall k, 0 <= u k < 1) -> draw_axis u fuel pos = Some (axis, p) ->
  exists q, p = S q /\ (pos <= q)%nat /\ (forall j, (pos <= j < q)%nat -> u j < 1 / 4) /\ (1 <= axis <= 3)%Z /\ IZR axis / 4 <= u q < (IZR axis + 1) / 4.
Proof.
  intros u. induction fuel as [|fuel IH]; intros pos axis p U E; [discriminate|]. cbn [draw_axis] in E.
  destruct (archimed (u pos * 4)) as [A B]. destruct (U pos) as [U0 U1]. set (k := int_of (u pos * 4)) in *.
  assert (KE : IZR k = IZR (up (u pos * 4)) - 1) by (unfold k, int_of; rewrite minus_IZR; reflexivity).
  assert (K0 : (0 <= k)%Z).
  { assert (0 < up (u pos * 4))%Z by (apply lt_IZR; lra). unfold k, int_of. lia. }
  assert (K3 : (k <= 3)%Z).
  { assert (IZR k < 4) by lra. apply lt_IZR in H. lia. }
  destruct ((k =? 0)%Z || (k =? 4)%Z)%bool eqn:Q.
  - assert (k0 : k = 0%Z) by (apply orb_true_iff in Q; destruct Q as [Q|Q]; apply Z.eqb_eq in Q; lia).
    destruct (IH (S pos) axis p U E) as [q [P [L [J [AX V]]]]]. exists q. split; [exact P|]. split; [lia|]. split; [|split; [exact AX|exact V]].
    intros j JJ. destruct (Nat.eq_dec j pos) as [->|NE]; [|apply J; lia]. rewrite k0 in KE. lra.
  - injection E as <- <-. exists pos. split; [reflexivity|]. split; [lia|]. split; [intros j JJ; lia|].
    apply orb_false_iff in Q. destruct Q as [Q _]. apply Z.eqb_neq in Q. split; [lia|]. lra.
Qed.

Lemma random_drawn : forall u box fuel n pos out, (forall k, 0 <= u k < 1) -> random_table u box fuel n pos = Some out -> drawn_from u box pos out /\ length out = n.
Proof.
  intros u box fuel. induction n as [|n IH]; intros pos out U E; cbn [random_table] in E.
  - injection E as <-. split; [constructor|reflexivity].
  - destruct (draw_axis u fuel pos) as [[axis p]|] eqn:D; [|discriminate]. destruct (draw_axis_spec u fuel pos axis p U D) as [q [-> [L [J [AX V]]]]].
    destruct (random_table u box fuel n (S q + 3)) as [rest|] eqn:RT; [|discriminate]. cbn [option_map] in E. injection E as <-.
    destruct (IH _ _ U RT) as [DR LN]. split; [|cbn [length]; rewrite LN; reflexivity].
    replace (u (S (q + 1)%nat)) with (u (q + 2)%nat) by (f_equal; lia). replace (u (S (q + 2)%nat)) with (u (q + 3)%nat) by (f_equal; lia).
    replace (u (S q)) with (u (q + 1)%nat) by (f_equal; lia).
    apply drawn_one with (p := q); try assumption. replace (q + 4)%nat with (S q + 3)%nat by lia. exact DR.
Qed.

Lemma C50_stream_aux : forall u box n fuel out, (forall k, 0 <= u k < 1) -> populate_los_table None u box n fuel = Some out ->
  drawn_from u box 0 out /\ length out = n.
Proof. intros u box n fuel out U E. exact (random_drawn u box fuel n 0 out U E). Qed.

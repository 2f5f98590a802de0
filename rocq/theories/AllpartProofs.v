(** Proofs about reading all particles. *)
From Coq Require Import Reals List Bool ZArith Arith Lia Lra.
From Verif Require Import ParticleModel ParticleSpec ParticleProofs AllpartModel AllpartSpec.
Import ListNotations.
Local Open Scope R_scope.

Section Read.
Variables (near : list vec -> list R -> list nat) (segs : nat -> segment).

Lemma lookup_cons : forall fn k v (c : cache), lookup fn ((k, v) :: c) = if Nat.eqb k fn then Some v else lookup fn c.
Proof. reflexivity. Qed.

Lemma read_remembered : forall final tb q c i, remembered near segs c ->
  exists c', read_particle_data near final tb q c i (segs i) =
    (read_indexed tb q (segs i) (near (s_pos (segs i)) (s_hh (segs i))), c') /\ remembered near segs c'.
Proof.
  intros final tb q c i R. unfold read_particle_data, find_index. destruct final.
  - destruct (lookup i c) as [ind|] eqn:E.
    + exists c. rewrite (R i ind E). split; [reflexivity|exact R].
    + eexists. split; [reflexivity|]. intros fn ind. rewrite lookup_cons. destruct (Nat.eqb_spec i fn) as [e|e]; [|apply R].
      intros H. injection H as <-. rewrite e. reflexivity.
  - exists c. split; [reflexivity|exact R].
Qed.

Lemma gather_some : forall A (arr : list A) ind, List.Forall (fun j => (j < length arr)%nat) ind ->
  exists out, gather arr ind = Some out /\ Forall2 (fun j x => nth_error arr j = Some x) ind out.
Proof.
  intros A arr. induction ind as [|j ind IH]; intros F; [exists []; split; [reflexivity|constructor]|].
  inversion F as [|? ? H F']; subst. destruct (IH F') as (out & E & G). cbn [gather].
  destruct (nth_error arr j) as [x|] eqn:N; [|apply nth_error_None in N; lia]. rewrite E. exists (x :: out). split; [reflexivity|].
  constructor; assumption.
Qed.

(** All the hydrogen of one segment. *)
Lemma read_hydrogen : forall tb rscale mass s ind n, complete s n -> List.Forall (fun j => (j < n)%nat) ind ->
  (ind = [] /\ read_indexed tb (hydrogen rscale mass) s ind = Nothing) \/
  (exists a, read_indexed tb (hydrogen rscale mass) s ind = Read a /\
     Forall2 (fun j x => nth_error (s_pos s) j = Some x) ind (a_pos a) /\ Forall2 (fun j x => nth_error (s_hh s) j = Some x) ind (a_hh a)).
Proof.
  intros tb rscale mass s ind n (L1 & L2 & L3 & L4 & L5 & L6 & L7) F.
  destruct ind as [|j ind]; [left; split; reflexivity|]. right. set (I := j :: ind) in *.
  destruct (gather_some _ (s_pos s) I) as (pos & E1 & G1); [rewrite L1; exact F|].
  destruct (gather_some _ (s_hh s) I) as (hh & E2 & G2); [rewrite L2; exact F|].
  destruct (gather_some _ (s_rho s) I) as (den & E4 & _); [rewrite L4; exact F|].
  destruct (gather_some _ (s_frac s) I) as (frac & E6 & _); [rewrite L6; exact F|].
  unfold read_indexed. unfold I at 1. cbn [hydrogen needs_temp r_tau r_ion r_hydrogen Z.eqb negb andb orb].
  rewrite E1. cbn [bind]. rewrite E2. cbn [bind]. rewrite E4. cbn [bind]. rewrite E6. cbn [bind].
  eexists. split; [reflexivity|]. cbn [a_pos a_hh]. split; assumption.
Qed.

Lemma Forall2_tag : forall A (f : segment -> list A) s ind out, Forall2 (fun j x => nth_error (f s) j = Some x) ind out ->
  Forall2 (fun p x => nth_error (f (fst p)) (snd p) = Some x) (map (pair s) ind) out.
Proof. intros A f s ind out H. induction H; cbn [map]; constructor; auto. Qed.

Lemma collect_ok : forall final tb rscale mass n i c pp hhh who,
  (forall k, (i <= k < i + n)%nat -> sound near (segs k)) -> remembered near segs c ->
  Forall2 (fun p x => nth_error (s_pos (fst p)) (snd p) = Some x) who pp ->
  Forall2 (fun p x => nth_error (s_hh (fst p)) (snd p) = Some x) who hhh ->
  exists pp' hhh' c', collect near final tb (hydrogen rscale mass) segs n i c pp hhh = (Done (pp', hhh'), c') /\
    remembered near segs c' /\
    Forall2 (fun p x => nth_error (s_pos (fst p)) (snd p) = Some x) (who ++ nearby near segs i n) pp' /\
    Forall2 (fun p x => nth_error (s_hh (fst p)) (snd p) = Some x) (who ++ nearby near segs i n) hhh'.
Proof.
  intros final tb rscale mass. induction n as [|n IH]; intros i c pp hhh who S0 R P H; cbn [collect].
  - exists pp, hhh, c. unfold nearby. cbn [seq flat_map]. rewrite app_nil_r. auto.
  - destruct (S0 i ltac:(lia)) as (m & C & F).
    destruct (read_remembered final tb (hydrogen rscale mass) c i R) as (c' & E & R'). rewrite E.
    assert (N : nearby near segs i (S n) = map (pair (segs i)) (near (s_pos (segs i)) (s_hh (segs i))) ++ nearby near segs (S i) n) by reflexivity.
    rewrite N. set (ind := near (s_pos (segs i)) (s_hh (segs i))) in *.
    destruct (read_hydrogen tb rscale mass (segs i) ind m C F) as [(E0 & ->)|(a & -> & A & B)].
    + rewrite E0. cbn [map app]. apply IH; auto. intros k K. apply S0. lia.
    + rewrite app_assoc. apply IH; auto.
      * intros k K. apply S0. lia.
      * apply Forall2_app; [exact P|]. exact (Forall2_tag _ s_pos _ _ _ A).
      * apply Forall2_app; [exact H|]. exact (Forall2_tag _ s_hh _ _ _ B).
Qed.

Lemma C128_all_aux : forall count final tb rscale mass c,
  (forall k, (k < count)%nat -> sound near (segs k)) -> remembered near segs c ->
  exists pp hhh c', find_all_particles HDF5 count near final tb rscale mass segs c = (Done (pp, hhh), c') /\
    Forall2 (fun p x => nth_error (s_pos (fst p)) (snd p) = Some x) (nearby near segs 0 count) pp /\
    Forall2 (fun p x => nth_error (s_hh (fst p)) (snd p) = Some x) (nearby near segs 0 count) hhh /\
    remembered near segs c'.
Proof.
  intros count final tb rscale mass c S0 R. unfold find_all_particles, count_segments.
  destruct (collect_ok final tb rscale mass count 0 c [] [] []) as (pp & hhh & c' & E & R' & P & H); auto.
  - intros k K. apply S0. lia.
  - exists pp, hhh, c'. auto.
Qed.

(** Reading everything first. *)
Lemma load_bad : forall q l, load_all_arrays q IndexError l = IndexError.
Proof. induction l as [|y l IHl]; [reflexivity|]. exact IHl. Qed.

Definition part (tb : table) (q : request) (k : nat) : read_result :=
  read_indexed tb q (segs k) (near (s_pos (segs k)) (s_hh (segs k))).

Lemma further_ok : forall final tb q n i c acc, remembered near segs c ->
  fst (further near final tb q segs n i c acc) = load_all_arrays q acc (map (part tb q) (seq i n)).
Proof.
  intros final tb q. induction n as [|n IH]; intros i c acc R; cbn [further seq map]; [reflexivity|].
  destruct (read_remembered final tb q c i R) as (c' & E & R'). rewrite E. clear E. fold (part tb q i).
  assert (U : forall rest, load_all_arrays q acc (part tb q i :: rest) = load_all_arrays q (add_segment q acc (part tb q i)) rest) by reflexivity.
  rewrite U. destruct (part tb q i) as [a| |] eqn:E; [apply IH, R'|apply IH, R'|].
  assert (X : add_segment q acc IndexError = IndexError) by (destruct acc; reflexivity). rewrite X, load_bad. reflexivity.
Qed.

Lemma load_ok : forall n final tb q c, remembered near segs c ->
  fst (load_all HDF5 (S n) near final tb q segs c) =
    match load_all_arrays q (part tb q 0) (map (part tb q) (seq 1 n)) with IndexError => Failed | r => Done r end.
Proof.
  intros n final tb q c R. unfold load_all. destruct (read_remembered final tb q c 0 R) as (c' & E & R'). rewrite E. clear E.
  fold (part tb q 0). cbn [count_segments]. replace (S n - 1)%nat with n by lia.
  pose proof (further_ok final tb q n 1 c' (part tb q 0) R') as F.
  destruct (part tb q 0) as [a| |] eqn:E.
  - destruct (further near final tb q segs n 1 c' (Read a)) as [r c'']. cbn [fst] in F. rewrite <- F. destruct r; reflexivity.
  - destruct (further near final tb q segs n 1 c' Nothing) as [r c'']. cbn [fst] in F. rewrite <- F. destruct r; reflexivity.
  - rewrite load_bad. reflexivity.
Qed.

Lemma Forall2_of_map : forall A B C (f : A -> B) (P : B -> C -> Prop) l m, Forall2 P (map f l) m -> Forall2 (fun x y => P (f x) y) l m.
Proof.
  intros A B C f P. induction l as [|x l IH]; intros m H; cbn [map] in H; inversion H; subst; constructor; auto.
Qed.

Lemma combine_map_tag : forall (f : nat -> segment * list nat) l jss,
  map (fun pj => tag (fst (fst pj)) (snd pj)) (combine (map f l) jss) = map (fun kj => tag (fst (f (fst kj))) (snd kj)) (combine l jss).
Proof. intros f. induction l as [|x l IH]; intros [|j jss]; cbn [map combine]; try reflexivity. rewrite IH. reflexivity. Qed.

Lemma C128_load_aux : forall count final tb q c, (0 < count)%nat ->
  b_lo (t_dens tb) <= b_hi (t_dens tb) -> b_lo (t_temp tb) <= b_hi (t_temp tb) ->
  (forall k, (k < count)%nat -> sound near (segs k)) -> remembered near segs c ->
  match fst (load_all HDF5 count near final tb q segs c) with
  | TypeError => False
  | Failed => r_hydrogen q = true /\ one_ion q /\ r_tau q = false
  | Done IndexError => False
  | Done Nothing => forall k, (k < count)%nat -> selects q (segs k) (near (s_pos (segs k)) (s_hh (segs k))) []
  | Done (Read a) => exists jss,
      Forall2 (fun k js => selects q (segs k) (near (s_pos (segs k)) (s_hh (segs k))) js) (seq 0 count) jss /\ concat jss <> [] /\
      describe tb q (concat (map (fun kj => tag (segs (fst kj)) (snd kj)) (combine (seq 0 count) jss))) a
  end.
Proof.
  intros count final tb q c P B1 B2 S0 R. destruct count as [|n]; [lia|]. rewrite (load_ok n final tb q c R).
  set (f := fun k => (segs k, near (s_pos (segs k)) (s_hh (segs k)))).
  assert (H : List.Forall (fun p => exists n, complete (fst p) n /\ List.Forall (fun i => (i < n)%nat) (snd p)) (f 0%nat :: map f (seq 1 n))).
  { change (f 0%nat :: map f (seq 1 n)) with (map f (seq 0 (S n))). apply Forall_forall. intros p I. apply in_map_iff in I as (k & <- & I).
    apply in_seq in I. apply (S0 k). lia. }
  pose proof (C45_all_aux tb q (f 0%nat) (map f (seq 1 n)) B1 B2 H) as G. rewrite map_map in G.
  change (read_indexed tb q (fst (f 0%nat)) (snd (f 0%nat))) with (part tb q 0) in G.
  change (map (fun x => read_indexed tb q (fst (f x)) (snd (f x))) (seq 1 n)) with (map (part tb q) (seq 1 n)) in G.
  change (f 0%nat :: map f (seq 1 n)) with (map f (seq 0 (S n))) in G.
  destruct (load_all_arrays q (part tb q 0) (map (part tb q) (seq 1 n))) as [a| |].
  - destruct G as (jss & A & B & C). exists jss. split; [exact (Forall2_of_map _ _ _ f _ _ _ A)|]. split; [exact B|].
    rewrite combine_map_tag in C. exact C.
  - intros k K. cbn [whole_ok] in G. rewrite List.Forall_forall in G. apply (G (f k)). apply in_map, in_seq. lia.
  - exact G.
Qed.

(** Snapshots of the other format. *)
Lemma C128_bigfile_aux : forall count final tb rscale mass q c,
  fst (find_all_particles BigFile count near final tb rscale mass segs c) = TypeError /\
  (fst (read_particle_data near final tb q c 0 (segs 0%nat)) <> IndexError -> fst (load_all BigFile count near final tb q segs c) = TypeError).
Proof.
  intros count final tb rscale mass q c. split; [reflexivity|]. unfold load_all.
  destruct (read_particle_data near final tb q c 0 (segs 0%nat)) as [r c']. cbn [fst]. destruct r; intros H; [reflexivity|reflexivity|congruence].
Qed.
End Read.

(** Velocities do not matter. *)
Definition same_but_velocities (s s' : segment) : Prop :=
  s_pos s = s_pos s' /\ s_hh s = s_hh s' /\ s_rho s = s_rho s' /\ s_temp s = s_temp s' /\ s_frac s = s_frac s' /\ s_hi s = s_hi s'.

Lemma read_no_velocities : forall near final tb rscale mass c i s s', same_but_velocities s s' ->
  read_particle_data near final tb (hydrogen rscale mass) c i s = read_particle_data near final tb (hydrogen rscale mass) c i s'.
Proof.
  intros near final tb rscale mass c i s s' (E1 & E2 & E3 & E4 & E5 & E6). unfold read_particle_data, find_index, read_indexed.
  rewrite E1, E2, E3, E4, E5, E6. reflexivity.
Qed.

Lemma C128_velocities_aux : forall f count near final tb rscale mass segs segs' c,
  (forall k, same_but_velocities (segs k) (segs' k)) ->
  find_all_particles f count near final tb rscale mass segs c = find_all_particles f count near final tb rscale mass segs' c.
Proof.
  intros f count near final tb rscale mass segs segs' c S0. unfold find_all_particles. destruct (count_segments f count) as [n|]; [|reflexivity].
  generalize (@nil vec), (@nil R), 0%nat. revert c. induction n as [|n IH]; intros c pp hhh i; [reflexivity|]. cbn [collect].
  rewrite (read_no_velocities near final tb rscale mass c i (segs i) (segs' i) (S0 i)).
  destruct (read_particle_data near final tb (hydrogen rscale mass) c i (segs' i)) as [r c']. destruct r; auto.
Qed.

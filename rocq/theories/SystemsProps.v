(** Property C41: merging fitted absorbers into systems. *)
From Coq Require Import ZArith List Bool QArith Permutation Sorting.Sorted Lia.
From Verif Require Import SystemsModel SystemsSpec SystemsProofs.
Import ListNotations.
Local Open Scope Z_scope.

(** For at least two components at different positions in [0, w): the call succeeds, and the
    systems are the periodic friends-of-friends groups of the components.  The components in
    order of position, started at some point of the circle, are cut into consecutive groups whose
    neighbours are closer than [close]; unless there is only one group, all gaps between
    consecutive groups (also from the last to the first) are at least [close]; the column
    density of each system is the sum over its group; and the position of a group inside the
    spectrum lies between its first and last member, that of two members is the middle of the
    arc between them (also across the boundary), and that of one member is its own. *)
Theorem C41_friends_of_friends : forall w close comps,
  (2 <= length comps)%nat -> NoDup (map fst comps) -> (forall c, In c comps -> 0 <= fst c < w) ->
  exists s groups pos,
    Permutation s comps /\ StronglySorted (fun a b => fst a < fst b) s /\
    get_systems w close comps = Systems (map (fun g => total (map snd g)) groups) pos /\
    length pos = length groups /\ Forall2 (placed w) groups pos /\
    (exists l1 l2, s = l1 ++ l2 /\ concat groups = l2 ++ l1) /\
    Forall (fun g => g <> []) groups /\ Forall (linked w close) groups /\
    (length groups = 1%nat \/ separated w close groups (hd [] groups)).
Proof. exact C41_groups_aux. Qed.
Print Assumptions C41_friends_of_friends.

(** Total column density is conserved and the number of systems does not grow. *)
Theorem C41_column_conserved : forall w close comps colden pos, (2 <= length comps)%nat ->
  NoDup (map fst comps) -> (forall c, In c comps -> 0 <= fst c < w) ->
  get_systems w close comps = Systems colden pos ->
  total colden = total (map snd comps) /\ (1 <= length colden <= length comps)%nat /\
  length pos = length colden.
Proof. exact C41_conserved_aux. Qed.
Print Assumptions C41_column_conserved.

Example C41_example : exists pos,
  get_systems 100 10 [(50, 3); (4, 7); (97, 1); (58, 5); (75, 2)] = Systems [8; 8; 2] pos.
Proof. eexists. vm_compute. reflexivity. Qed.

(** A single component is returned unchanged, unless the merging distance exceeds the length of
    the spectrum: then it is merged with itself and disappears. *)
Theorem C41_single_component : forall w close c, 0 < w ->
  get_systems w close [c] =
    if w <? close then Systems [] [] else Systems [snd c] [inject_Z (fst c)].
Proof. exact C41_single_aux. Qed.
Print Assumptions C41_single_component.

(** The reported position of a system across the boundary can be far from all its members: three
    components within 7 of each other (98, 1, 5 with period 100) are reported at 51.25. *)
Theorem C41_position_refuted : exists w close comps p,
  (2 <= length comps)%nat /\ NoDup (map fst comps) /\ (forall c, In c comps -> 0 <= fst c < w) /\
  (exists c, In c comps /\ forall d, In d comps -> ahead w c d <= 7) /\
  get_systems w close comps = Systems [total (map snd comps)] [p] /\
  (forall c, In c comps -> (45 <= inject_Z (fst c) - p \/ 45 <= p - inject_Z (fst c))%Q).
Proof.
  exists 100, 10, [(98, 1); (1, 1); (5, 1)]. eexists.
  split; [simpl; lia|]. split; [repeat constructor; simpl; intuition lia|].
  split; [simpl; intuition (subst; simpl; lia)|]. split.
  - exists (98, 1). split; [left; auto|]. intros d [<-|[<-|[<-|[]]]]; vm_compute; discriminate.
  - split; [vm_compute; reflexivity|]. intros c [<-|[<-|[<-|[]]]]; simpl.
    + left. vm_compute. discriminate.
    + right. vm_compute. discriminate.
    + right. vm_compute. discriminate.
Qed.
Print Assumptions C41_position_refuted.

(** C94-C96: saving emission spectra, file systems that refuse, and several processes saving at once. *)
From Coq Require Import ZArith String List Lia Arith.
From Verif Require Import StoreModel StoreSpec StoreProofs EmsaveModel EmsaveSpec EmsaveProofs EmsaveProofs2.
Import ListNotations.
Local Open Scope Z_scope.

(** Loading, accessing any arrays and saving with EmissionSpectra: optical depths and column densities survive, weighted quantities only
    if they were accessed, and a column density of a single element is replaced by the velocity. *)
Theorem C94_resave : forall (A H : Type) (size : A -> nat) (hole : A) fresh weighted,
  large size fresh weighted -> (size hole <= 1)%nat ->
  forall (F : file A H) (d : disk A H) ks, written F -> main d = Good F -> (forall k, In k ks -> in_range k) ->
  (forall e i, tiny_column size F e i -> exists v, stored F (KDerived Velocity e i) v) ->
  exists o vs o1 o2 d' F', load hole (Good F) = Ok o /\ run size fresh weighted (map (Get false) ks) d o = Ok (vs, d, o1) /\
    em_save size d o1 = Ok (o2, d') /\
    main d' = Good F' /\ backup d' = Good F /\ written F' /\ f_hdr F' = f_hdr F /\
    (forall k a, stored F k a -> ~ weighted_quantity k -> (forall e i, k = KPlain ColDen e i -> (1 < size a)%nat) -> stored F' k a) /\
    (forall k a, stored F k a -> weighted_quantity k -> (In k ks -> stored F' k a) /\ (~ In k ks -> stored F' k hole)) /\
    (forall e i v, tiny_column size F e i -> stored F (KDerived Velocity e i) v -> stored F' (KPlain ColDen e i) v).
Proof. intros A H size hole fresh weighted L Hh. apply (C94_resave_aux size hole fresh weighted L Hh). Qed.
Print Assumptions C94_resave.

(** A column density of a single element without a velocity makes the save fail. *)
Theorem C94_keyerror_refuted : forall (A H : Type) (size : A -> nat) (hole : A), (size hole <= 1)%nat ->
  forall (F : file A H) (d : disk A H) e i, written F -> main d = Good F -> tiny_column size F e i ->
  (forall v, ~ stored F (KDerived Velocity e i) v) -> exists o, load hole (Good F) = Ok o /\ em_save size d o = Err KeyError.
Proof.
  intros A H size hole Hh. exact (C94_keyerror_aux size hole (fun _ => hole) (fun _ _ => hole) Hh).
Qed.
Print Assumptions C94_keyerror_refuted.

(** After loading and saving twice, velocities (and the other weighted quantities) are on the disk no more. *)
Theorem C94_lost_refuted : forall (A H : Type) (size : A -> nat) (hole : A) fresh weighted,
  large size fresh weighted -> (size hole <= 1)%nat ->
  forall (F : file A H) (d : disk A H) k a, written F -> main d = Good F -> stored F k a -> weighted_quantity k -> a <> hole ->
  (forall e i c, stored F (KPlain ColDen e i) c -> (1 < size c)%nat) ->
  exists o1 o1' d1 o2 o2' d2, load hole (main d) = Ok o1 /\ em_save size d o1 = Ok (o1', d1) /\
    load hole (main d1) = Ok o2 /\ em_save size d1 o2 = Ok (o2', d2) /\
    forall G, main d2 = Good G \/ backup d2 = Good G -> ~ stored G k a.
Proof. intros A H size hole fresh weighted L Hh. apply (C94_lost_aux size hole fresh weighted L Hh). Qed.
Print Assumptions C94_lost_refuted.

(** Spectra.save_file on any file system: whichever step is refused, and wherever it is interrupted, the previous contents remain. *)
Theorem C95_base : forall (A H : Type) env (F old : file A H) (d : disk A H) states raised,
  main d = Good old -> base_attempt env F d = (states, raised) ->
  (forall s, In s states -> recoverable s old) /\
  (raised = false <-> (dir_there env = true \/ mkdir_works env = true) /\ move_works env = true /\ open_works env = true) /\
  (raised = false -> last states d = {| main := Good F; backup := Good old |}).
Proof. intros A H. exact C95_base_aux. Qed.
Print Assumptions C95_base.

(** The same for EmissionSpectra.save_file when the backup can be made. *)
Theorem C95_emission : forall (A H : Type) env (F old : file A H) (d : disk A H) states raised,
  main d = Good old -> move_works env = true -> em_attempt env F d = (states, raised) ->
  (forall s, In s states -> recoverable s old) /\
  (raised = false <-> dir_there env = true /\ (open_works env = true \/ reopen_works env = true)) /\
  (raised = false -> last states d = {| main := Good F; backup := Good old |}).
Proof. intros A H. exact C95_safe_aux. Qed.
Print Assumptions C95_emission.

(** When the backup cannot be made, EmissionSpectra.save_file overwrites the only copy without an error. *)
Theorem C95_backup_refuted : forall (A H : Type) env (F old : file A H) (d : disk A H),
  main d = Good old -> backup d <> Good old -> F <> old ->
  dir_there env = true -> move_works env = false -> reopen_works env = true ->
  exists torn final, em_attempt env F d = ([d; torn; final], false) /\ main torn = Torn /\ main final = Good F /\
    ~ recoverable torn old /\ ~ recoverable final old.
Proof. intros A H. exact C95_unsafe_aux. Qed.
Print Assumptions C95_backup_refuted.

(** In a directory that is not there, Spectra saves and EmissionSpectra raises. *)
Theorem C95_directory_refuted : forall (A H : Type) env (F : file A H) (d : disk A H),
  main d = Absent -> dir_there env = false -> mkdir_works env = true -> open_works env = true ->
  snd (base_attempt env F d) = false /\ last (fst (base_attempt env F d)) d = {| main := Good F; backup := backup d |} /\
  snd (em_attempt env F d) = true /\ (forall s, In s (fst (em_attempt env F d)) -> s = d).
Proof. intros A H. exact C95_directory_aux. Qed.
Print Assumptions C95_directory_refuted.

(** Spectra.save_file called by any number of processes: at any point of any schedule the previous contents can be read, and when
    process 0 has finished, its contents are the save file and the previous ones the backup. *)
Theorem C96_base : forall (X : Type) (new : nat -> X) (old : X) (b : option (body X)) (sched : list nat),
  let s := base_run new sched (before old b) in readable s old /\
  ((4 <= count_occ Nat.eq_dec sched 0 )%nat -> under s (main_name s) = Some (Whole (new 0%nat)) /\ under s (backup_name s) = Some (Whole old)).
Proof. exact C96_base_aux. Qed.
Print Assumptions C96_base.

(** EmissionSpectra.save_file called by any number of processes: the previous contents can be read exactly as long as no process
    overtakes another. *)
Theorem C96_emission : forall (X : Type) (new : nat -> X) (old : X) (b : option (body X)), (forall r, new r <> old) ->
  forall sched, readable (em_run new sched (before old b)) old <-> ~ overtakes sched.
Proof. exact C96_schedules_aux. Qed.
Print Assumptions C96_emission.

(** When two or more processes save one after the other, the previous contents are always lost: the backup is what the last but one
    wrote. *)
Theorem C96_one_by_one_refuted : forall (X : Type) (new : nat -> X) (old : X) (b : option (body X)) rs r1 r2, NoDup (rs ++ [r1; r2]) ->
  let s := em_run new (one_by_one (rs ++ [r1; r2])) (before old b) in
  under s (main_name s) = Some (Whole (new r2)) /\ under s (backup_name s) = Some (Whole (new r1)).
Proof. exact C96_one_by_one_aux. Qed.
Print Assumptions C96_one_by_one_refuted.

(** ** Examples *)
Definition em_obj : obj (list Z) nat :=
  {| hdr := 3%nat; cache := [(KTau "H" 1 1215, [4; 5; 6]); (KPlain ColDen "H" 1, [7; 8]); (KDerived Velocity "H" 1, [9; 9])] |}.

Lemma em_obj_ok : one_each em_obj /\ forall k, get key_dec (cache em_obj) k <> None -> in_range k.
Proof.
  split; [repeat constructor; cbn; intuition discriminate|]. intros k G. destruct (get key_dec (cache em_obj) k) as [a|] eqn:E; [|congruence].
  apply (get_In key_dec) in E. destruct E as [E|[E|[E|[]]]]; injection E as <- <-; cbn; lia.
Qed.

Example C94_example : written (contents em_obj) /\ stored (contents em_obj) (KDerived Velocity "H" 1) [9; 9] /\
  weighted_quantity (KDerived Velocity "H" 1) /\ [9; 9] <> [0] /\
  (forall e i c, stored (contents em_obj) (KPlain ColDen e i) c -> (1 < List.length c)%nat) /\
  (forall e i, tiny_column (@List.length Z) (contents em_obj) e i -> exists v, stored (contents em_obj) (KDerived Velocity e i) v).
Proof.
  destruct em_obj_ok as (N & Rg).
  assert (L : forall e i c, stored (contents em_obj) (KPlain ColDen e i) c -> (1 < List.length c)%nat).
  { intros e i c S1. apply contents_stored in S1; [|assumption]. apply (get_In key_dec) in S1. destruct S1 as [E|[E|[E|[]]]]; try discriminate.
    injection E as <- <- <-. cbn. lia. }
  split; [apply contents_written; assumption|]. split; [apply contents_stored; [assumption|reflexivity]|]. split; [exact I|]. split; [discriminate|].
  split; [assumption|]. intros e i (c & S1 & S2). specialize (L e i c S1). lia.
Qed.

(** Loaded and saved: the velocity is a single zero. *)
Example C94_run_example : exists o o' d', load [0] (Good (contents em_obj)) = Ok o /\
  em_save (@List.length Z) {| main := Good (contents em_obj); backup := Absent |} o = Ok (o', d') /\
  get key_dec (cache o') (KDerived Velocity "H" 1) = Some [0] /\ get key_dec (cache o') (KPlain ColDen "H" 1) = Some [7; 8].
Proof. do 3 eexists. repeat split. Qed.

(** One pixel and one sightline: the velocity becomes the column density. *)
Definition em_tiny : obj (list Z) nat := {| hdr := 3%nat; cache := [(KPlain ColDen "H" 1, [7]); (KDerived Velocity "H" 1, [9])] |}.
Example C94_tiny_example : exists o o' d', load [0] (Good (contents em_tiny)) = Ok o /\
  em_save (@List.length Z) {| main := Good (contents em_tiny); backup := Absent |} o = Ok (o', d') /\
  get key_dec (cache o') (KPlain ColDen "H" 1) = Some [9].
Proof. do 3 eexists. repeat split. Qed.

Example C95_example : let env := {| dir_there := true; mkdir_works := true; move_works := false; open_works := true; reopen_works := true |} in
  snd (base_attempt env (contents em_tiny) {| main := Good (contents em_obj); backup := Absent |}) = true /\
  snd (em_attempt env (contents em_tiny) {| main := Good (contents em_obj); backup := Absent |}) = false /\ contents em_tiny <> contents em_obj.
Proof. split; [reflexivity|]. split; [reflexivity|]. intros C. apply (f_equal f_data) in C. discriminate C. Qed.

(** Two processes in step do no harm; one after the other they do. *)
Example C96_example : readable (em_run (fun r => r) [0; 1; 0; 1; 0; 1; 0; 1]%nat (before 7%nat None)) 7%nat /\
  overtakes [0; 0; 0; 1; 1]%nat.
Proof.
  split; [right; reflexivity|]. exists 1%nat, 3%nat, 4%nat. split; [split; reflexivity|]. split; [split; reflexivity|].
  assert (B : some_before [0; 0; 0; 1; 1]%nat 3 3) by (exists 0%nat, 2%nat; split; [split; reflexivity|lia]).
  split; [|right; exact B]. exists 0%nat, 2%nat. split; [split; reflexivity|lia].
Qed.

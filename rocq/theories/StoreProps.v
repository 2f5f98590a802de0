(** C18-C21, C23: the spectra cache and its save file.  Arrays are any type with a size; [hole] is the array holding a
    single zero. *)
From Coq Require Import ZArith String List Reals Lra Lia Arith.
From Verif Require Import AbsorptionSpec FilterModel FilterSpec FilterProofs ReplaceModel ReplaceSpec
  StoreModel StoreSpec StoreProofs StoreProofs2 StoreProofs3 StoreProofs4.
From Flocq Require Zaux Generic_fmt FLT Round_NE.
Import ListNotations.
Local Open Scope Z_scope.

(** Saving any object and loading the file: every access returns the saved array, in whatever order, and what was
    not saved is computed again. *)
Theorem C18_roundtrip : forall (A H : Type) (size : A -> nat) (hole : A) fresh weighted,
  large size fresh weighted -> (size hole <= 1)%nat ->
  forall (d : disk A H) (o : obj A H), one_each o -> (forall k a, cached o k a -> (1 < size a)%nat /\ in_range k) ->
  exists o1 d' o', save size d o = Ok (o1, d') /\ load hole (main d') = Ok o' /\ hdr o' = hdr o /\
    forall ks, exists vs o'', run size fresh weighted (map (Get false) ks) d' o' = Ok (vs, d', o'') /\
      Forall2 (answer (cached o) fresh weighted) ks vs.
Proof. intros A H size hole fresh weighted L Hh. apply (C18_roundtrip_aux size hole fresh weighted L Hh). Qed.
Print Assumptions C18_roundtrip.

(** An object with a cached optical depth or column density of a single element cannot be saved. *)
Theorem C18_single_element_refuted : forall (A H : Type) (size : A -> nat) (d : disk A H) (o : obj A H) k a,
  one_each o -> cached o k a -> (size a <= 1)%nat -> (forall e i, k <> KDerived Velocity e i) -> ~ neglected k ->
  main d = Absent -> save size d o = Err IOError.
Proof. exact C18_small_aux. Qed.
Print Assumptions C18_single_element_refuted.

(** Velocities of a single element do not prevent saving: everything cached is saved. *)
Theorem C18_velocity : forall (A H : Type) (size : A -> nat) (d : disk A H) (o : obj A H), one_each o -> main d = Absent ->
  (forall k a, cached o k a -> (size a <= 1)%nat -> neglected k \/ exists e i, k = KDerived Velocity e i) ->
  exists d' F, save size d o = Ok (o, d') /\ main d' = Good F /\ f_hdr F = hdr o /\ forall k a, stored F k a <-> cached o k a.
Proof. exact @C18_velocity_aux. Qed.
Print Assumptions C18_velocity.

(** A wavelength that is not a double is found in the file under the nearest double, ties to even. *)
Theorem C18_wavelength : forall (A H : Type) (hole : A) (d : disk A H) (o : obj A H) F, one_each o -> F = contents o -> main d = Good F ->
  exists o', load hole (main d) = Ok o' /\ hdr o' = hdr o /\
    forall k a, cached o k a ->
      match k with
      | KTau e i l => exists l', IZR l' = Generic_fmt.round Zaux.radix2 (FLT.FLT_exp (-1074) 53) Round_NE.ZnearestE (IZR l) /\ cached o' (KTau e i l') hole
      | _ => cached o' k hole
      end.
Proof. exact @C18_wavelength_aux. Qed.
Print Assumptions C18_wavelength.

(** Loading, accessing any arrays, saving: the datasets survive, except temperatures and density-weighted densities that
    were not accessed, which are overwritten by a single zero. *)
Theorem C19_resave : forall (A H : Type) (size : A -> nat) (hole : A) fresh weighted,
  large size fresh weighted -> (size hole <= 1)%nat ->
  forall (F : file A H) (d : disk A H) ks, written F -> main d = Good F -> (forall k, In k ks -> in_range k) ->
  exists o vs d' o' F', load hole (Good F) = Ok o /\
    run size fresh weighted (map (Get false) ks ++ [Save]) d o = Ok (vs, d', o') /\
    main d' = Good F' /\ backup d' = Good F /\ written F' /\ f_hdr F' = f_hdr F /\
    forall k a, stored F k a -> (~ neglected k \/ In k ks -> stored F' k a) /\ (neglected k -> ~ In k ks -> stored F' k hole).
Proof. intros A H size hole fresh weighted L Hh. apply (C19_resave_aux size hole fresh weighted L Hh). Qed.
Print Assumptions C19_resave.

(** After loading and saving twice the dataset is gone from the backup too. *)
Theorem C19_lost_refuted : forall (A H : Type) (size : A -> nat) (hole : A) fresh weighted,
  large size fresh weighted -> (size hole <= 1)%nat ->
  forall (F : file A H) (d : disk A H) k a, written F -> main d = Good F -> stored F k a -> neglected k -> a <> hole ->
  exists o1 o1' d1 o2 o2' d2, load hole (main d) = Ok o1 /\ save size d o1 = Ok (o1', d1) /\
    load hole (main d1) = Ok o2 /\ save size d1 o2 = Ok (o2', d2) /\
    forall G, main d2 = Good G \/ backup d2 = Good G -> ~ stored G k a.
Proof. intros A H size hole fresh weighted L Hh. apply (C19_lost_aux size hole fresh weighted L Hh). Qed.
Print Assumptions C19_lost_refuted.

(** At every crash point of one save, the previous contents are on the disk. *)
Theorem C20_crash : forall (A H : Type) (size : A -> nat) (d : disk A H) (o : obj A H) F, main d = Good F ->
  forall o' d', save size d o = Ok (o', d') ->
  (exists F', save_states F' d = [d; moved d; {| main := Torn; backup := backup (moved d) |}; d']) /\
  forall F' s, In s (save_states F' d) -> recoverable s F.
Proof. intros A H. exact C20_crash_aux. Qed.
Print Assumptions C20_crash.

(** After any history of saves, the contents of the last completed save are on the disk, unless after it one save was
    interrupted while writing and a later one after the move. *)
Theorem C20_history : forall (A H : Type) (d : disk A H) es0 F es,
  Forall (fun e => match e with Crashed _ _ => True | Completed _ => False end) es ->
  (recoverable (history (es0 ++ Completed F :: es) d) F <->
   ~ exists es1 F1 es2 F2 p es3, es = es1 ++ Crashed F1 Writing :: es2 ++ Crashed F2 p :: es3 /\ p <> BeforeMove).
Proof. intros A H. exact C20_history_aux. Qed.
Print Assumptions C20_history.

(** Any history of accesses, forced or not, on an object whose cache is true, returns the values a new object would;
    saves in between do no harm if no temperature or density-weighted density is unread. *)
Theorem C21_transparent : forall (A H : Type) (size : A -> nat) fresh weighted, large size fresh weighted ->
  forall ops (d : disk A H) (o : obj A H), file_ok (main d) -> faithful size fresh weighted (main d) o ->
  (all_read size o \/ ~ In Save ops) -> (forall k, In k (accesses ops) -> in_range k) ->
  exists d' o', run size fresh weighted ops d o = Ok (map (value fresh weighted) (accesses ops), d', o') /\
    faithful size fresh weighted (main d') o' /\ file_ok (main d').
Proof. intros A H size fresh weighted L. apply (C21_transparent_aux size fresh weighted L). Qed.
Print Assumptions C21_transparent.

(** The same after saving and loading. *)
Theorem C21_reload : forall (A H : Type) (size : A -> nat) (hole : A) fresh weighted,
  large size fresh weighted -> (size hole <= 1)%nat ->
  forall (d : disk A H) (o : obj A H), file_ok (main d) -> faithful size fresh weighted (main d) o -> all_read size o ->
  exists o1 d' o', save size d o = Ok (o1, d') /\ load hole (main d') = Ok o' /\ hdr o' = hdr o /\ file_ok (main d') /\
    faithful size fresh weighted (main d') o' /\ forall k, (exists a, cached o k a) <-> (exists a, cached o' k a).
Proof. intros A H size hole fresh weighted L Hh. apply (C21_reload_aux size hole fresh weighted L Hh). Qed.
Print Assumptions C21_reload.

(** A save with an unread temperature makes the object answer with a single zero. *)
Theorem C21_unread_refuted : forall (A H : Type) (size : A -> nat) (hole : A) fresh weighted,
  large size fresh weighted -> (size hole <= 1)%nat ->
  forall (F : file A H) (d : disk A H) k a, written F -> main d = Good F -> stored F k a -> neglected k ->
  exists o d' o', load hole (main d) = Ok o /\ run size fresh weighted [Save; Get false k] d o = Ok ([hole], d', o').
Proof. intros A H size hole fresh weighted L Hh. apply (C21_save_aux size hole fresh weighted L Hh). Qed.
Print Assumptions C21_unread_refuted.

(** With arrays of a single element the second access raises. *)
Theorem C21_single_element_refuted : forall (A H : Type) (size : A -> nat) (fresh : key -> A) weighted (h : H) (b : fstate A H) k,
  (forall d e i, k <> KDerived d e i) -> (size (fresh k) <= 1)%nat ->
  run size fresh weighted [Get false k; Get false k] {| main := Absent; backup := b |} {| hdr := h; cache := [] |} = Err IOError.
Proof. exact C21_small_aux. Qed.
Print Assumptions C21_single_element_refuted.

(** A statistic with a threshold below the largest optical depth leaves the masked array in the cache: later accesses
    return it, and it is what gets saved. *)
Theorem C21_statistic_refuted : forall (H : Type) (fresh : key -> list (list R)) weighted (h : H) (d : disk (list (list R)) H)
    e i l thresh r x fuel,
  let a := fresh (KTau e i l) in
  (1 < length (concat a))%nat -> Forall (fun r => r <> [] /\ (length r <= fuel)%nat) a ->
  (effective_tau a + 1 / 4 <= thresh)%R -> (0 < thresh)%R -> In r a -> In x r -> (thresh < x)%R ->
  exists b o1, statistic (fun t : list (list R) => length (concat t)) fresh (main d)
      (fun t => match filter_tau fuel t (Some thresh) with Done t' => Some t' | _ => None end)
      e i l {| hdr := h; cache := [] |} = Some (Ok (b, o1)) /\
    b <> a /\ (forall y, In y (concat b) -> (y <= thresh)%R) /\
    (exists o2, access (fun t => length (concat t)) fresh weighted (main d) false (KTau e i l) o1 = Ok (b, o2)) /\
    (exists o2 d' F, save (fun t => length (concat t)) d o1 = Ok (o2, d') /\ main d' = Good F /\ stored F (KTau e i l) b).
Proof. exact C21_filter_aux. Qed.
Print Assumptions C21_statistic_refuted.

(** After replace_not_DLA, the column density of H 1 is the new one, arrays cached before are returned unchanged (they
    belong to the old sightlines), and everything else is computed for the new sightlines. *)
Theorem C23_replaced : forall (A H : Type) (size : A -> nat) fresh weighted (f : fstate A H) (o : obj A H) h colden,
  one_each o -> (1 < size colden)%nat ->
  (exists o', access size fresh weighted f false (KPlain ColDen "H" 1) (replaced h colden o) = Ok (colden, o')) /\
  (forall k a, cached o k a -> (1 < size a)%nat -> k <> KPlain ColDen "H" 1 ->
     exists o', access size fresh weighted f false k (replaced h colden o) = Ok (a, o')) /\
  (forall k, (forall a, ~ cached o k a) -> k <> KPlain ColDen "H" 1 -> (forall d e i, k <> KDerived d e i) ->
     exists o', access size fresh weighted f false k (replaced h colden o) = Ok (fresh k, o')).
Proof. intros A H. exact C23_aux. Qed.
Print Assumptions C23_replaced.

(** Saved after replace_not_DLA and loaded: the new sightlines and column density, and still the arrays of the old sightlines. *)
Theorem C23_saved : forall (A H : Type) (size : A -> nat) (hole : A) fresh weighted,
  large size fresh weighted -> (size hole <= 1)%nat ->
  forall (d : disk A H) (o : obj A H) h colden, one_each o -> (forall k a, cached o k a -> (1 < size a)%nat /\ in_range k) -> (1 < size colden)%nat ->
  exists o1 d' o', save size d (replaced h colden o) = Ok (o1, d') /\ load hole (main d') = Ok o' /\ hdr o' = h /\
    (exists o2, run size fresh weighted [Get false (KPlain ColDen "H" 1)] d' o' = Ok ([colden], d', o2)) /\
    (forall k a, cached o k a -> k <> KPlain ColDen "H" 1 -> exists o2, run size fresh weighted [Get false k] d' o' = Ok ([a], d', o2)).
Proof. exact C23_saved_aux. Qed.
Print Assumptions C23_saved.

(** Whatever species the sightlines are selected by, get_col_density("H", 1) then returns its column density. *)
Theorem C23_species_refuted : forall (P : Type) (col : string -> Z -> P -> Z -> list R) fresh weighted
    (f : fstate (list (option (list R))) _) (o : obj (list (option (list R))) (list (option P) * list Z))
    fuel th n axis gen a r elem ion,
  (2 <= n <= length axis)%nat -> (forall j, length (gen j) = length axis) -> (forall x, In x axis -> x = a) -> one_each o ->
  replace_not_DLA P (col elem ion) fuel th n axis gen = Done r ->
  exists positions o', length positions = n /\ new_cofm r = map Some positions /\
    access (fun t => length t) fresh weighted f false (KPlain ColDen "H" 1) (replaced (new_cofm r, new_axis r) (new_colden r) o)
      = Ok (map (fun p => Some (col elem ion p a)) positions, o').
Proof. exact C23_species_aux. Qed.
Print Assumptions C23_species_refuted.

(** ** Examples: arrays are lists of integers. *)
Definition ex_fresh (k : key) : list Z := match k with KTau _ i l => [i; l] | _ => [1; 2] end.
Definition ex_weighted (k : key) (c : list Z) : list Z := 7 :: 8 :: c.
Example C18_example : large (@length Z) ex_fresh ex_weighted /\ (length [0%Z] <= 1)%nat.
Proof. split; [|cbn; lia]. split; [intros [e i l|p e i|d e i]; cbn; lia|intros k c; cbn; lia]. Qed.

Definition ex_obj : obj (list Z) nat :=
  {| hdr := 3%nat; cache := [(KTau "H" 1 1215, [4; 5; 6]); (KPlain ColDen "Si" 2, [7; 8]); (KDerived Temperature "H" 1, [9; 9])] |}.
Example C18_obj_example : one_each ex_obj /\ forall k a, cached ex_obj k a -> (1 < length a)%nat /\ in_range k.
Proof.
  split.
  - repeat constructor; cbn; intuition discriminate.
  - intros k a [E|[E|[E|[]]]]; injection E as <- <-; cbn; lia.
Qed.

(** The file written, read back through the model. *)
Example C18_run_example : exists d' o o'',
  save (@length Z) {| main := Absent; backup := Absent |} ex_obj = Ok (ex_obj, d') /\ load [0] (main d') = Ok o /\
  run (@length Z) ex_fresh ex_weighted (map (Get false) [KDerived Temperature "H" 1; KTau "H" 1 1025; KTau "H" 1 1215]) d' o
    = Ok ([[9; 9]; [1; 1025]; [4; 5; 6]], d', o'').
Proof. do 3 eexists. split; [reflexivity|]. split; [reflexivity|]. reflexivity. Qed.

Example C19_file_example : written (contents ex_obj) /\ stored (contents ex_obj) (KDerived Temperature "H" 1) [9; 9] /\
  neglected (KDerived Temperature "H" 1) /\ [9; 9] <> [0].
Proof.
  destruct C18_obj_example as (N & R). split.
  - apply contents_written; [assumption|]. intros k G. destruct (get key_dec (cache ex_obj) k) as [a|] eqn:E; [|congruence].
    apply (get_In key_dec) in E. apply (R k a E).
  - split; [apply contents_stored; [assumption|reflexivity]|]. split; [exact I|discriminate].
Qed.

(** A completed save, a crash while writing, a crash before the move, a completed save, two crashes. *)
Example C20_example : let F := contents ex_obj in
  let es := [Crashed F Writing; Crashed F BeforeMove] in
  recoverable (history ([Completed F; Crashed F Writing] ++ Completed F :: es) {| main := Absent; backup := Absent |}) F /\
  ~ recoverable (history ([Completed F] ++ Completed F :: [Crashed F Writing; Crashed F AfterMove]) {| main := Absent; backup := Absent |}) F.
Proof.
  intros F es. split; [right; reflexivity|]. intros [C|C]; discriminate C.
Qed.

Example C21_example : faithful (@length Z) ex_fresh ex_weighted (@Absent (list Z) nat) {| hdr := 3%nat; cache := [(KTau "H" 1 1215, [1; 1215])] |} /\
  all_read (@length Z) ({| hdr := 3%nat; cache := [(KTau "H" 1 1215, [1; 1215])] |} : obj (list Z) nat) /\ file_ok (@Absent (list Z) nat).
Proof.
  split; [split|split].
  - repeat constructor; cbn; tauto.
  - intros k a [E|[]]. injection E as <- <-. split; [cbn; lia|]. left. split; [cbn; lia|reflexivity].
  - intros k a [E|[]] N. injection E as <- <-. contradiction N.
  - intros F E. discriminate E.
Qed.

Example C21_run_example : exists d' o',
  run (@length Z) ex_fresh ex_weighted [Get false (KDerived Velocity "H" 1); Save; Get true (KTau "H" 1 1215); Get false (KPlain ColDen "H" 1)]
    {| main := Absent; backup := Absent |} {| hdr := 3%nat; cache := [] |} = Ok ([[7; 8; 1; 2]; [1; 1215]; [1; 2]], d', o').
Proof. do 2 eexists. reflexivity. Qed.

(** An optical depth array for C21_statistic_refuted: as in C25, [[10; 0; 0]] with threshold 1. *)
Example C21_statistic_example : let a := [[10; 0; 0]]%R in
  (1 < length (concat a))%nat /\ Forall (fun r => r <> [] /\ (length r <= 3)%nat) a /\ In 10%R [10; 0; 0]%R /\ (1 < 10)%R.
Proof. intros a. split; [cbn; lia|]. split; [repeat constructor; discriminate|]. split; [left; reflexivity|lra]. Qed.

(** A stale optical depth after a replacement. *)
Example C23_example : exists o', access (@length Z) ex_fresh ex_weighted (@Absent (list Z) nat) false (KTau "H" 1 1215) (replaced 4%nat [1; 1] ex_obj) = Ok ([4; 5; 6], o').
Proof. eexists. reflexivity. Qed.

(** A velocity of a single element is saved, and after loading it is read from the file again. *)
Example C18_velocity_example : exists d' F, save (@length Z) {| main := Absent; backup := Absent |} {| hdr := 3%nat; cache := [(KDerived Velocity "H" 1, [5])] |}
  = Ok ({| hdr := 3%nat; cache := [(KDerived Velocity "H" 1, [5])] |}, d') /\ main d' = Good F /\ stored F (KDerived Velocity "H" 1) [5].
Proof.
  destruct (C18_velocity (list Z) nat (@length Z) {| main := Absent; backup := Absent |} {| hdr := 3%nat; cache := [(KDerived Velocity "H" 1, [5])] |}) as (d' & F & S1 & M & _ & St).
  - repeat constructor; cbn; tauto.
  - reflexivity.
  - intros k a [E|[]] _. injection E as <- <-. right. exists "H"%string, 1. reflexivity.
  - exists d', F. split; [exact S1|]. split; [exact M|]. apply St. left. reflexivity.
Qed.

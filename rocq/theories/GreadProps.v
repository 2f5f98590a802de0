(** C123: Gadget binary snapshots in the C extractor. *)
From Coq Require Import Ascii String.
From Coq Require Import Reals List Bool ZArith Arith Lia Lra.
From Verif Require Import CreadModel CreadSpec GreadModel GreadSpec GreadProofs GreadProofs2.
Import ListNotations.
Local Open Scope R_scope.

(** A complete snapshot of gas of one density: every particle is interpolated as stored, with electrons stored or counted from the ions
    and half the smoothing length, and the output file has a header, the optical depths and the column densities. *)
Theorem C123_complete : forall interp byte put_double put_int split numlos s pos vel rho u ne fr len, (0 < n_files s)%Z ->
  complete split s pos vel rho u ne fr len -> uniform (n_gas s) rho ->
  0 < g_time s -> 0 < g_hubble s -> (forall i, (i < n_gas s)%nat -> 0 <= nth i ne 0) ->
  exists hd l, k_time hd = g_time s /\ k_redshift hd = g_redshift s /\ k_box hd = g_box s /\ k_hubble hd = g_hubble s /\
    k_hz hd = 100 * g_hubble s * sqrt (1 + g_omega0 s * (1 / g_time s - 1) + g_omegal s * (g_time s ^ 2 - 1)) / g_time s /\
    particles_of s pos vel rho u ne fr len l /\
    run interp byte put_double put_int split true numlos s =
      Ends byte 0 (Some (put_double (g_redshift s) ++ put_double (g_box s) ++ put_int 1024%Z ++ put_int numlos ++ concat (repeat (put_int 0%Z) 26)
        ++ concat (map put_double (fst (interp hd l))) ++ concat (map put_double (snd (interp hd l)))))%list.
Proof. exact C123_complete_aux. Qed.
Print Assumptions C123_complete.

(** The density block is taken for masses, which must be equal: any snapshot in which two particles differ in density ends the program with
    the exit status of success and an empty output file. *)
Theorem C123_density_refuted : forall interp byte put_double put_int split numlos s rho,
  (0 < n_files s)%Z -> (0 < n_gas s)%nat -> holds s "RHO " 1 rho -> ~ uniform (n_gas s) rho ->
  run interp byte put_double put_int split true numlos s = Ends byte 0 (Some []).
Proof. exact C123_density_aux. Qed.
Print Assumptions C123_density_refuted.

(** Without densities for all particles no spectra are written deliberately: success with an empty file, or what happens depends on memory
    nobody has written. *)
Theorem C123_short_refuted : forall interp byte put_double put_int split numlos s,
  (0 < n_files s)%Z -> (0 < n_gas s)%nat -> lacks s "RHO " 1 ->
  run interp byte put_double put_int split true numlos s = Ends byte 0 (Some []) \/
  run interp byte put_double put_int split true numlos s = Depends byte.
Proof. exact C123_short_aux. Qed.
Print Assumptions C123_short_refuted.

(** Errors that are noticed.  A snapshot without gas has emptied the output file. *)
Theorem C123_errors : forall interp byte put_double put_int split can_open numlos s,
  ((n_files s <= 0)%Z -> run interp byte put_double put_int split can_open numlos s = Ends byte 2 None) /\
  ((0 < n_files s)%Z -> run interp byte put_double put_int split false numlos s = Ends byte 1 None) /\
  ((0 < n_files s)%Z -> n_gas s = 0%nat -> run interp byte put_double put_int split true numlos s = Ends byte 2 (Some [])).
Proof. exact C123_errors_aux. Qed.
Print Assumptions C123_errors.

(** The same gas of one density in an HDF5 file gives the same particles. *)
Theorem C123_agree : forall n hd g s rho, (0 < n)%nat -> sound g -> same_gas n hd g s -> g_block s "RHO " = Some rho -> uniform n rho ->
  0 < g_time s -> 0 < g_hubble s -> (forall ne, g_block s "NE  " = Some ne -> Forall (fun x => 0 <= x) ne) ->
  exists l p, extract_file (g_time s) (g_hubble s) (mkSnap (Some hd) (Some g)) = Some l /\ length l = n /\
    load_snapshot false s = Loaded n p /\ converted (g_time s) (g_hubble s) (Z.of_nat n) p = l.
Proof. exact C123_agree_aux. Qed.
Print Assumptions C123_agree.

(** A snapshot without cooling, or without enough positions, velocities, energies, electrons or lengths is not refused: numbers nobody
    has written are interpolated. *)
Theorem C123_missing_refuted : forall split s n p a h, load_snapshot split s = Loaded n p ->
  lacks s "POS " 3 \/ lacks s "VEL " 3 \/ lacks s "U   " 1 \/ g_cooling s = false \/ (split = false /\ (lacks s "NE  " 1 \/ lacks s "HSML" 1)) \/
  (split = true /\ (lacks s "NHP " 1 \/ lacks s "NHEP" 1)) ->
  n = n_gas s /\ ~ Forall determinate (converted a h (Z.of_nat n) p).
Proof. exact C123_missing_aux. Qed.
Print Assumptions C123_missing_refuted.

(** If electrons are counted from ions the space of the smoothing lengths is used for ions: without smoothing lengths half the fraction of
    He++ is one; without He++ the electrons of He+ are counted three times. *)
Theorem C123_scratch_refuted : forall s n p hp hep, load_snapshot true s = Loaded n p -> g_cooling s = true ->
  holds s "NHP " 1 hp -> holds s "NHEP" 1 hep ->
  (forall hepp, g_block s "HSML" = None -> holds s "NHEQ" 1 hepp -> forall i, (i < n)%nat -> nth_error (p_h p) i = Some (Some (nth i hepp 0 / 2))) /\
  (g_block s "NHEQ" = None -> forall i, (i < n)%nat -> nth_error (p_ne p) i = Some (Some (nth i hp 0 + 3 * nth i hep 0))).
Proof.
  assert (L : forall (a : array) i x, at_ a i = Some x -> nth_error a i = Some (Some x)).
  { intros a i x. unfold at_. destruct (nth_error a i) as [y|]; [intros ->; reflexivity|discriminate]. }
  intros s n p hp hep E C H1 H2. destruct (C123_scratch_aux s n p hp hep E C H1 H2) as [A B]. split.
  - intros hepp HS HQ i I. apply L. now apply (A hepp).
  - intros HQ i I. apply L. now apply B.
Qed.
Print Assumptions C123_scratch_refuted.

(** ** Examples *)
Definition two (second : R) (missing : string) : gsnap :=
  mkGsnap 1 2 true 0.25 3 10000 0.7 0.3 0.7 (fun x => if String.eqb x missing then None
    else if String.eqb x "POS " || String.eqb x "VEL " then Some [1; 2; 3; 4; 5; 6] else if String.eqb x "RHO " then Some [1; second] else Some [1; 2]).

Example C123_example : complete true (two 1 "") [1; 2; 3; 4; 5; 6] [1; 2; 3; 4; 5; 6] [1; 1] [1; 2] [4; 8] [1; 2] [1; 2] /\
  complete false (two 1 "") [1; 2; 3; 4; 5; 6] [1; 2; 3; 4; 5; 6] [1; 1] [1; 2] [1; 2] [1; 2] [1; 2] /\
  uniform 2 [1; 1] /\ holds (two 2 "") "RHO " 1 [1; 2] /\ ~ uniform 2 [1; 2] /\ lacks (two 1 "U   ") "U   " 1 /\
  (exists p, load_snapshot true (two 1 "HSML") = Loaded 2 p) /\ (exists p, load_snapshot true (two 1 "NHEQ") = Loaded 2 p) /\
  (exists p, load_snapshot false (two 1 "U   ") = Loaded 2 p).
Proof.
  assert (H : forall m x v w, g_block (two 1 m) x = Some v -> (w * 2 <= length v)%nat -> holds (two 1 m) x w v) by (intros; split; auto).
  split; [|split; [|split; [|split; [|split; [|split]]]]].
  - unfold complete, electrons_of. split; [cbn; lia|]. split; [reflexivity|]. do 4 (split; [apply H; [reflexivity|cbn; lia]|]).
    split; [|split; apply H; [reflexivity|cbn; lia|reflexivity|cbn; lia]].
    exists [1; 2], [1; 2], [1; 2]. do 3 (split; [apply H; [reflexivity|cbn; lia]|]). intros i I. cbn [n_gas two] in I.
    destruct i as [|[|i]]; [cbn [nth]; lra|cbn [nth]; lra|lia].
  - unfold complete, electrons_of. split; [cbn; lia|]. split; [reflexivity|]. do 6 (split; [apply H; [reflexivity|cbn; lia]|]). apply H; [reflexivity|cbn; lia].
  - intros i j I J. destruct i as [|[|i]]; destruct j as [|[|j]]; try lia; reflexivity.
  - split; [reflexivity|cbn; lia].
  - intros U. specialize (U 0%nat 1%nat ltac:(lia) ltac:(lia)). cbn [nth] in U. lra.
  - intros (v & E & _). discriminate E.
  - assert (C : forall m (split : bool), (m = "HSML" \/ m = "NHEQ" \/ m = "U   ")%string -> exists p, load_snapshot split (two 1 m) = Loaded 2 p).
    { intros m split M. unfold load_snapshot. cbn [n_gas two Nat.eqb alloc_parts p_dens].
      assert (D : get_block (two 1 m) "RHO " 1 2 (fresh 2) = [Some 1; Some 1]) by (destruct M as [-> | [-> | ->]]; reflexivity).
      rewrite D. cbn [at_ nth_error compare]. destruct (Req_EM_T 1 1) as [_|N]; [|lra]. cbn [g_cooling two].
      destruct (read_electrons _ _ _ _ _) as [ne h]. eexists. reflexivity. }
    repeat split; apply C; auto.
Qed.

(** One particle in both formats. *)
Definition one_hdf : group := fun x =>
  if String.eqb x "Coordinates" || String.eqb x "Velocities" then Some (mkDataset [1; 3]%nat true 4 true [1; 2; 3])
  else if String.eqb x "Volume" then None else Some (mkDataset [1]%nat true 4 true [1]).
Definition one_gadget : gsnap := mkGsnap 1 1 true 0.25 3 10000 0.7 0.3 0.7
  (fun x => if String.eqb x "POS " || String.eqb x "VEL " then Some [1; 2; 3] else Some [1]).

Example C123_agree_case : sound one_hdf /\ same_gas 1 (mkHeader 1 0 true) one_hdf one_gadget /\ g_block one_gadget "RHO " = Some [1] /\ uniform 1 [1] /\
  (forall ne, g_block one_gadget "NE  " = Some ne -> Forall (fun x => 0 <= x) ne).
Proof.
  split.
  { intros name d. unfold one_hdf. destruct (String.eqb name "Coordinates" || String.eqb name "Velocities"); [intros E; now injection E as <-|].
    destruct (String.eqb name "Volume"); [discriminate|]. intros E. now injection E as <-. }
  split.
  { do 6 (split; [reflexivity|]). intros hdf gad dims I. cbn [In] in I.
    repeat (destruct I as [I|I]; [injection I as <- <- <-; eexists; split; [eexists; cbn; repeat split; reflexivity|reflexivity]|]). destruct I. }
  split; [reflexivity|]. split; [intros i j I J; destruct i; destruct j; lia || reflexivity|].
  intros ne E. injection E as <-. constructor; [lra|constructor].
Qed.

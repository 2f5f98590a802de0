(** Histories of statistics on one object: the theorems of C107. *)
From Coq Require Import ZArith Ascii String List Reals Lra Lia Permutation.
From Verif Require Import AbsorptionSpec RescaleModel RescaleSpec FilterModel FluxModel SessionModel SessionSpec SessionProofs SessionProofs2 SessionProofs3.
Import ListNotations.
Local Open Scope R_scope.

(** Without thresholds and without rescaling for the three dimensional power, a history of any length gives every answer that a new
    object would give to that call alone. *)
Theorem C107_plain : forall compute parts fuel power3d nbins vmax spec_res box dvbin velfac atime light, regular fuel compute ->
  let run := session compute parts fuel power3d nbins vmax spec_res box dvbin velfac atime light in
  forall qs, List.Forall plain qs -> exists answers st, run qs new_object = Some (answers, st) /\
    Forall2 (fun q a => exists st1, run [q] new_object = Some ([a], st1)) qs answers.
Proof. intros compute parts fuel power3d nbins vmax spec_res box dvbin velfac atime light Reg run. exact (C107_plain_aux compute parts fuel power3d nbins vmax spec_res box dvbin velfac atime light Reg). Qed.
Print Assumptions C107_plain.

(** No array that a caller holds changes in such a history: arrays are only added. *)
Theorem C107_held : forall compute parts fuel power3d nbins vmax spec_res box dvbin velfac atime light, regular fuel compute ->
  let run := session compute parts fuel power3d nbins vmax spec_res box dvbin velfac atime light in
  forall qs qs' answers st answers' st', List.Forall plain qs -> List.Forall plain qs' ->
  run qs new_object = Some (answers, st) -> run qs' st = Some (answers', st') -> exists more, heap st' = heap st ++ more.
Proof. intros compute parts fuel power3d nbins vmax spec_res box dvbin velfac atime light Reg run. exact (C107_held_aux compute parts fuel power3d nbins vmax spec_res box dvbin velfac atime light Reg). Qed.
Print Assumptions C107_held.

(** With one threshold for every line (or none), within the limits of C25, likewise. *)
Theorem C107_one_threshold : forall compute parts fuel power3d nbins vmax spec_res box dvbin velfac atime light, regular fuel compute ->
  let run := session compute parts fuel power3d nbins vmax spec_res box dvbin velfac atime light in
  forall threshold qs, List.Forall (steady threshold) qs -> List.Forall (admissible compute) qs ->
  exists answers st, run qs new_object = Some (answers, st) /\
    Forall2 (fun q a => exists st1, run [q] new_object = Some ([a], st1)) qs answers.
Proof. intros compute parts fuel power3d nbins vmax spec_res box dvbin velfac atime light Reg run. exact (C107_steady_aux compute parts fuel power3d nbins vmax spec_res box dvbin velfac atime light Reg). Qed.
Print Assumptions C107_one_threshold.

(** Whatever the order of thresholds within the limits of C25 for the computed optical depths, no call of a history fails to mask. *)
Theorem C107_runs : forall compute parts fuel power3d nbins vmax spec_res box dvbin velfac atime light, regular fuel compute ->
  let run := session compute parts fuel power3d nbins vmax spec_res box dvbin velfac atime light in
  forall qs, List.Forall (admissible compute) qs -> exists answers st, run qs new_object = Some (answers, st) /\ length answers = length qs.
Proof. intros compute parts fuel power3d nbins vmax spec_res box dvbin velfac atime light Reg run. exact (C107_runs_aux compute parts fuel power3d nbins vmax spec_res box dvbin velfac atime light Reg). Qed.
Print Assumptions C107_runs.

(** After a statistic with threshold [t], a threshold not below [t] is as none, until the line is computed anew. *)
Theorem C107_higher : forall compute parts fuel power3d nbins vmax spec_res box dvbin velfac atime light, regular fuel compute ->
  let run := session compute parts fuel power3d nbins vmax spec_res box dvbin velfac atime light in
  forall pre s k t mid s' t', List.Forall (admissible compute) pre -> admissible compute (Ask s k (Some t)) ->
  List.Forall (admissible compute) mid -> List.Forall (keeps k) mid -> t <= t' ->
  run (pre ++ Ask s k (Some t) :: mid ++ [Ask s' k (Some t')]) new_object = run (pre ++ Ask s k (Some t) :: mid ++ [Ask s' k None]) new_object.
Proof. intros compute parts fuel power3d nbins vmax spec_res box dvbin velfac atime light Reg run. exact (C107_higher_aux compute parts fuel power3d nbins vmax spec_res box dvbin velfac atime light Reg). Qed.
Print Assumptions C107_higher.

(** Along a history the mean flux of a line never falls, and is never below that of the computed optical depths. *)
Theorem C107_mean : forall compute parts fuel power3d nbins vmax spec_res box dvbin velfac atime light, regular fuel compute ->
  let run := session compute parts fuel power3d nbins vmax spec_res box dvbin velfac atime light in
  forall pre k th mid th', List.Forall (admissible compute) (pre ++ Ask MeanFlux k th :: mid ++ [Ask MeanFlux k th']) ->
  List.Forall (keeps k) mid ->
  exists l x l' x' st, run (pre ++ Ask MeanFlux k th :: mid ++ [Ask MeanFlux k th']) new_object = Some (l ++ Some (Number x) :: l' ++ [Some (Number x')], st) /\
    length l = length pre /\ transmission (compute k) <= x <= x'.
Proof. intros compute parts fuel power3d nbins vmax spec_res box dvbin velfac atime light Reg run. exact (C107_mean_aux compute parts fuel power3d nbins vmax spec_res box dvbin velfac atime light Reg). Qed.
Print Assumptions C107_mean.

(** The guard on thresholds is needed: if any pixel is above the threshold of a statistic, a mean flux asked for later without a
    threshold is larger than the mean flux, and an array handed out earlier has changed. *)
Theorem C107_leak_refuted : forall compute parts fuel power3d nbins vmax spec_res box dvbin velfac atime light, regular fuel compute ->
  let run := session compute parts fuel power3d nbins vmax spec_res box dvbin velfac atime light in
  forall s k t r x, (forall m, s <> Power3D (Some m)) -> effective_tau (compute k) + 1 / 4 <= t -> 0 < t -> In r (compute k) -> In x r -> t < x ->
  exists a y st, run [Ask s k (Some t); Ask MeanFlux k None] new_object = Some ([a; Some (Number y)], st) /\
    (exists st1, run [Ask MeanFlux k None] new_object = Some ([Some (Number (transmission (compute k)))], st1)) /\
    transmission (compute k) < y /\
    (exists st0 a0, run [Fetch false k None] new_object = Some ([Some (Array (compute k))], st0) /\ heap st0 = [compute k] /\
       exists st2, run [Ask s k (Some t)] st0 = Some ([a0], st2) /\ exists b, heap st2 = [b] /\ b <> compute k).
Proof. intros compute parts fuel power3d nbins vmax spec_res box dvbin velfac atime light Reg run. exact (C107_leak_aux compute parts fuel power3d nbins vmax spec_res box dvbin velfac atime light Reg). Qed.
Print Assumptions C107_leak_refuted.

(** One threshold for a line is needed: a lower threshold after a higher one does not give what it gives alone. *)
Theorem C107_lower_refuted : forall parts power3d nbins vmax spec_res box dvbin velfac atime light k,
  let compute := (fun _ : key => [[100; 0; 5; 0]]) in
  let run := session compute parts 4 power3d nbins vmax spec_res box dvbin velfac atime light in
  regular 4 compute /\ admissible compute (Ask MeanFlux k (Some 50)) /\ admissible compute (Ask MeanFlux k (Some 2)) /\
  exists x y z st st', run [Ask MeanFlux k (Some 50); Ask MeanFlux k (Some 2)] new_object = Some ([Some (Number x); Some (Number y)], st) /\
    run [Ask MeanFlux k (Some 2)] new_object = Some ([Some (Number z)], st') /\ z < y.
Proof. exact C107_lower_aux. Qed.
Print Assumptions C107_lower_refuted.

(** The exclusion of rescaling is needed: after a three dimensional power spectrum for a mean flux of [m], the mean flux asked for is
    [m], up to the tolerance and whatever it was before. *)
Theorem C107_rescale_refuted : forall compute parts power3d nbins vmax spec_res box dvbin velfac atime light k m sstar,
  divided (concat (compute k)) (parts (concat (compute k))) -> absorbing (concat (compute k)) ->
  (forall x, In x (concat (compute k)) -> x <= 10 ^ 30) ->
  mean_transmission sstar (concat (compute k)) = m -> / 10000000000 <= sstar ->
  exists enough, forall fuel, (enough <= fuel)%nat -> regular fuel compute ->
    exists a x st, session compute parts fuel power3d nbins vmax spec_res box dvbin velfac atime light
      [Ask (Power3D (Some m)) k None; Ask MeanFlux k None] new_object = Some ([a; Some (Number x)], st) /\ m <= x <= m + 1 / 99999.
Proof. exact C107_rescale_aux. Qed.
Print Assumptions C107_rescale_refuted.

(** ** The hypotheses are met *)
Definition ex_key : key := ("H"%string, 1%Z, 1215%Z).
Definition ex_compute (k : key) : matrix := [[100; 0; 5; 0]].

Example C107_regular_example : regular 4 ex_compute.
Proof. intros k. split; [cbn; lia|]. repeat constructor; discriminate. Qed.

(** Thresholds of 50 and of 2 are within the limits for this line (see C107_lower_refuted), and there are pixels above both. *)
Example C107_admissible_example : admissible ex_compute (Ask MeanFlux ex_key (Some 50)) /\ admissible ex_compute (Ask (Power1D None true) ex_key (Some 2)) /\
  In 100 [100; 0; 5; 0] /\ In 5 [100; 0; 5; 0].
Proof.
  destruct (C107_lower_refuted (fun _ _ => []) (fun _ _ => []) 4 1 1 1 1 1 1 1 ex_key) as (_ & A & B & _).
  split; [exact A|]. split; [exact B|]. split; [left; reflexivity|right; right; left; reflexivity].
Qed.

Example C107_plain_example : List.Forall plain [Ask (FluxPdf 20 (Some (1 / 2))) ex_key None; Fetch true ex_key None; Ask (Power3D None) ex_key None; EqWidth ex_key].
Proof. repeat constructor. Qed.

Example C107_steady_example : List.Forall (steady (fun _ => Some 50)) [Ask MeanFlux ex_key (Some 50); Fetch true ex_key (Some 0%nat); Ask (Power1D None false) ex_key (Some 50)].
Proof. repeat constructor. Qed.

(** The optical depths doubled: mean flux (2 + exp(-200) + exp(-10)) / 4, with all pixels on one thread. *)
Example C107_rescale_example : divided (concat (ex_compute ex_key)) (fun _ => [concat (ex_compute ex_key)]) /\ absorbing (concat (ex_compute ex_key)) /\
  (forall x, In x (concat (ex_compute ex_key)) -> x <= 10 ^ 30) /\
  mean_transmission 2 (concat (ex_compute ex_key)) = (2 + exp (- (200)) + exp (- (10))) / 4 /\ / 10000000000 <= 2.
Proof.
  cbn [ex_compute concat app]. split; [intros k; cbn; apply Permutation_refl|]. split; [|split; [|split; [|lra]]].
  - split; [repeat constructor; lra|]. constructor. lra.
  - assert (100 <= 10 ^ 30). { apply Rle_trans with (10 ^ 2); [lra|]. apply Rle_pow; [lra|lia]. }
    cbn [In]. intros x [<- |[<- |[<- |[<- |[]]]]]; lra.
  - unfold mean_transmission, rsum. cbn [map fold_right length]. replace (INR 4) with 4 by (cbn; lra).
    replace (- (2 * 100)) with (- (200)) by lra. replace (- (2 * 5)) with (- (10)) by lra. rewrite Rmult_0_r, Ropp_0, exp_0. lra.
Qed.

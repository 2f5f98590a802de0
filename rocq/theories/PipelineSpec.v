(** Vocabulary for the statements about whole spectra. *)
From Coq Require Import ZArith List Reals Permutation.
From Verif Require Import Containers IndexModel IndexSpec AbsorptionModel AbsorptionSpec PipelineModel.
Import ListNotations.
Local Open Scope R_scope.

(** Position and velocity along the direction of a sightline. *)
Definition along (l : sightline) (g : gas) : Z :=
  if (l_axis l =? 1)%Z then p_x (g_part g)
  else if (l_axis l =? 2)%Z then p_y (g_part g) else p_z (g_part g).
Definition vel_along (l : sightline) (g : gas) : R :=
  let '(vx, vy, vz) := g_vel g in
  if (l_axis l =? 1)%Z then vx else if (l_axis l =? 2)%Z then vy else vz.

(** The spectrum [arr] that one particle alone leaves on one sightline: what add_colden_particle
    or add_tau_particle (C07-C13) deposits on an empty line at the true periodic distance. *)
Definition single (qu : quantity) (su : setup) (l : sightline) (g : gas) (arr : list R) : Prop :=
  exists d2, transverse_distance2 (su_box su) (g_part g) l d2 /\
  let L := su_line su in let n := Z.of_nat (su_nbins su) in
  let u := su_unit su in
  match qu with
  | Column => add_colden_particle (su_kern su) (vbox L) (velfac L) n (u * u * IZR d2) (g_dens g)
                (u * IZR (along l g)) (u * IZR (p_h (g_part g))) (repeat 0 (su_nbins su)) = Some arr
  | Depth => add_tau_particle (su_profile su) L (su_kern su) n (u * u * IZR d2) (g_dens g)
                (u * IZR (along l g)) (vel_along l g) (g_temp g) (u * IZR (p_h (g_part g)))
                (repeat 0 (su_nbins su)) = Some arr
  end.

(** Inputs for which the search is exact (C01) and no index overflows. *)
Definition good_gas (su : setup) (g : gas) : Prop :=
  (0 < p_h (g_part g))%Z /\ (2 * p_h (g_part g) < su_box su)%Z /\ good_particle (su_box su) (g_part g).
Definition fits (su : setup) (ls : list sightline) (gs : list gas) : Prop :=
  (3 * Z.of_nat (length gs) <= 2 ^ 31)%Z /\
  (Z.of_nat (length ls) * Z.of_nat (su_nbins su) <= 2 ^ 32)%Z.

(** [tr] is an interleaving of the event sequences [ts]. *)
Inductive interleaving {A} : list (list A) -> list A -> Prop :=
| il_done : forall ts, Forall (eq []) ts -> interleaving ts []
| il_step : forall ts i e es tr, nth_error ts i = Some (e :: es) ->
    interleaving (update_nth i (fun _ => es) ts) tr -> interleaving ts (e :: tr).

(** A schedule: every loop index once, in any order. *)
Definition schedule (n : nat) (order : list nat) : Prop := Permutation order (seq 0 n).

(** [x] is the sum over the particles [gs] of what each alone leaves in pixel [j] of line [l]. *)
Definition pixel_sum (qu : quantity) (su : setup) (l : sightline) (j : nat) (gs : list gas) (x : R) : Prop :=
  exists arrs, Forall2 (single qu su l) gs arrs /\ x = rsum (map (fun a => nth j a 0) arrs).

(** A segment within the limits, run with valid loop orders. *)
Definition segment_ok (positive_only : bool) (su : setup) (ls : list sightline) (s : segment) : Prop :=
  Forall (good_gas su) (fst s) /\ fits su ls (fst s) /\
  (positive_only = true -> Forall (fun g => 0 <= g_dens g) (fst s)) /\
  schedule (length (fst s)) (fst (snd s)) /\
  (forall kept, read_particles positive_only su ls (fst s) (fst (snd s)) = Some kept ->
     schedule (length kept) (fst (snd (snd s)))) /\
  schedule (length ls) (snd (snd (snd s))).

(** The particles of all segments of all ranks. *)
Definition all_gas (ranks : list (segment * list segment)) : list gas :=
  concat (map (fun r => fst (fst r) ++ concat (map fst (snd r))) ranks).

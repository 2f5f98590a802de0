(** Vocabulary for density weighted averages along sightlines. *)
From Coq Require Import ZArith List Reals.
From Verif Require Import Containers IndexModel IndexSpec AbsorptionModel AbsorptionSpec PipelineModel PipelineSpec.
Import ListNotations.
Local Open Scope R_scope.

(** The same particles with a quantity [w] in the place of their mass: density times [w]. *)
Definition carrying (w : gas -> R) (gs : list gas) : list gas :=
  map (fun g => mkGas (g_part g) (g_vel g) (g_dens g * w g) (g_temp g)) gs.

(** [x] is the sum of [w] over the particles [mine], each weighted with its column density in pixel [j] of line [l], divided
    by the column density of the particles [all]; 0 if there is none.  With mine = all it is the weighted mean of [w]. *)
Definition share (su : setup) (l : sightline) (j : nat) (w : gas -> R) (mine all : list gas) (x : R) : Prop :=
  exists num den, pixel_sum Column su l j (carrying w mine) num /\ pixel_sum Column su l j all den /\ 0 <= den /\
    (0 < den -> x * den = num) /\ (den = 0 -> x = 0).

(** A particle with mass: its smoothing sphere meets the line. *)
Definition touches (su : setup) (ls : list sightline) (g : gas) : Prop :=
  exists l d, In l ls /\ transverse_distance2 (su_box su) (g_part g) l d /\ (d < p_h (g_part g) * p_h (g_part g))%Z.

(** All segments of a rank within the limits. *)
Definition rank_ok (positive_only : bool) (su : setup) (ls : list sightline) (r : segment * list segment) : Prop :=
  segment_ok positive_only su ls (fst r) /\ Forall (segment_ok positive_only su ls) (snd r).

(** Specification vocabulary for the particle arrays. *)
From Coq Require Import Reals List.
From Verif Require Import ParticleModel.
Import ListNotations.
Local Open Scope R_scope.

(** [out] lists the entries of [arr] of the particles [js], in that order. *)
Definition picks {A} (arr : list A) (js : list nat) (out : list A) : Prop :=
  Forall2 (fun j x => nth_error arr j = Some x) js out.

(** All arrays of a segment describe the same [n] particles. *)
Definition complete (s : segment) (n : nat) : Prop :=
  length (s_pos s) = n /\ length (s_hh s) = n /\ length (s_vel s) = n /\
  length (s_rho s) = n /\ length (s_temp s) = n /\ length (s_frac s) = n /\
  length (s_hi s) = n.

(** Particle [j] has density [rho] and its element makes up [f] of the mass,
    negative fractions counting as zero. *)
Definition has (s : segment) (j : nat) (rho f : R) : Prop :=
  nth_error (s_rho s) j = Some rho /\
  exists raw, nth_error (s_frac s) j = Some raw /\ f = Rmax raw 0.

(** The temperature used for particle [j]: its own if positive, else 1. *)
Definition temp_of (s : segment) (j : nat) (t : R) : Prop :=
  exists raw, nth_error (s_temp s) j = Some raw /\
    (0 < raw -> t = raw) /\ (raw <= 0 -> t = 1).

(** [y] is [x] moved into the interval, and [x] itself if it lies there. *)
Definition moved_into (b : bounds) (x y : R) : Prop :=
  b_lo b <= y <= b_hi b /\ (b_lo b <= x <= b_hi b -> y = x) /\
  (x < b_lo b -> y = b_lo b) /\ (b_hi b < x -> y = b_hi b).

(** Temperatures are wanted for optical depths and for ions of metals. *)
Definition wants_temp (q : request) : Prop :=
  r_tau q = true \/ (r_ion q <> (-1)%Z /\ r_hydrogen q = false).

(** The three kinds of request. *)
Definition neutral_hydrogen (q : request) : Prop := r_hydrogen q = true /\ r_ion q = 1%Z.
Definition whole_element (q : request) : Prop := r_ion q = (-1)%Z.
Definition one_ion (q : request) : Prop := ~ neutral_hydrogen q /\ ~ whole_element q.

(** The particles of [ind] that are kept: all of them, except that for one ion
    those without any of the element are left out. *)
Definition selects (q : request) (s : segment) (ind js : list nat) : Prop :=
  exists keep, js = filter keep ind /\
    (~ one_ion q -> js = ind) /\
    (one_ion q -> forall j rho f, In j ind -> has s j rho f ->
       (keep j = true <-> 0 < rho * r_rscale q * f)).

(** The number density (times [rscale]) of particle [j] in the requested species. *)
Definition density_of (tb : table) (q : request) (s : segment) (j : nat) (x : R) : Prop :=
  exists rho f, has s j rho f /\
  (neutral_hydrogen q -> exists hi, nth_error (s_hi s) j = Some hi /\
     x = rho * r_rscale q * f * hi / r_mass q) /\
  (whole_element q -> x = rho * r_rscale q * f / r_mass q) /\
  (one_ion q -> exists d t t0, temp_of s j t0 /\ moved_into (t_dens tb) rho d /\
     (wants_temp q -> moved_into (t_temp tb) t0 t) /\
     x = rho * r_rscale q * f * t_ion tb d t / r_mass q).

(** Entry [k] of every array belongs to the particle [who[k]], a segment and an
    index into it. *)
Definition describe (tb : table) (q : request) (who : list (segment * nat)) (a : arrays) : Prop :=
  Forall2 (fun p x => nth_error (s_pos (fst p)) (snd p) = Some x) who (a_pos a) /\
  Forall2 (fun p x => nth_error (s_hh (fst p)) (snd p) = Some x) who (a_hh a) /\
  Forall2 (fun p x => density_of tb q (fst p) (snd p) x) who (a_den a) /\
  (r_tau q = true -> Forall2 (fun p x => nth_error (s_vel (fst p)) (snd p) = Some x) who (a_vel a)) /\
  (wants_temp q -> Forall2 (fun p x => temp_of (fst p) (snd p) x /\ 0 < x) who (a_temp a)).

Definition tag (s : segment) (js : list nat) : list (segment * nat) := map (pair s) js.

(** Which particles are meant. *)
From Coq Require Import Reals List.
From Verif Require Import ParticleModel ParticleSpec.
Import ListNotations.

(** The particles near the sightlines of the segments [i] .. [i+n-1]: segment by segment, and within each in the order of the search. *)
Definition nearby (near : list vec -> list R -> list nat) (segs : nat -> segment) (i n : nat) : list (segment * nat) :=
  flat_map (fun k => map (pair (segs k)) (near (s_pos (segs k)) (s_hh (segs k)))) (seq i n).

(** The search names particles which exist. *)
Definition sound (near : list vec -> list R -> list nat) (s : segment) : Prop :=
  exists n, complete s n /\ List.Forall (fun j => (j < n)%nat) (near (s_pos s) (s_hh s)).

(** The index lists remembered are those of the search. *)
Definition remembered (near : list vec -> list R -> list nat) (segs : nat -> segment) (c : cache) : Prop :=
  forall fn ind, lookup fn c = Some ind -> ind = near (s_pos (segs fn)) (s_hh (segs fn)).

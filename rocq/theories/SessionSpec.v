(** Vocabulary for the statements about histories of statistics. *)
From Coq Require Import List Reals.
From Verif Require Import FilterModel SessionModel.
Import ListNotations.
Local Open Scope R_scope.

Definition about (q : query) : key :=
  match q with Ask _ k _ => k | Fetch _ k _ => k | EqWidth k => k | Curvature k _ => k end.

(** The call neither masks nor rescales. *)
Definition plain (q : query) : Prop :=
  match q with
  | Ask (Power3D (Some _)) _ _ => False
  | Ask _ _ (Some _) => False
  | _ => True
  end.

(** The call does not rescale, and its threshold, if any, is within the limit of C25 for that line. *)
Definition admissible (compute : key -> matrix) (q : query) : Prop :=
  match q with
  | Ask (Power3D (Some _)) _ _ => False
  | Ask _ k (Some t) => effective_tau (compute k) + 1 / 4 <= t /\ 0 < t
  | _ => True
  end.

(** The call does not compute the line [k] anew. *)
Definition keeps (k : key) (q : query) : Prop := match q with Fetch true k' _ => k' <> k | _ => True end.

(** Computed arrays have more than one element, at least one pixel in each spectrum, and no more pixels than the loops are given. *)
Definition regular (fuel : nat) (compute : key -> matrix) : Prop :=
  forall k, (1 < length (concat (compute k)))%nat /\ Forall (fun r => r <> [] /\ (length r <= fuel)%nat) (compute k).

(** Every statistic of a line is asked with the threshold of that line; the line itself is only asked for anew, or has no threshold. *)
Definition steady (threshold : key -> option R) (q : query) : Prop :=
  match q with
  | Ask _ k t => t = threshold k
  | Fetch true _ _ => True
  | Fetch false k _ | EqWidth k | Curvature k _ => threshold k = None
  end.

(** The mean of exp(-tau) over all pixels. *)
Definition transmission (a : matrix) : R :=
  fold_right Rplus 0 (map (fun t => exp (- t)) (concat a)) / INR (length (concat a)).

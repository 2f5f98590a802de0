(** Vocabulary for curvature. *)
From Coq Require Import List Reals.
From Verif Require Import SightlineSpec.
Import ListNotations.
Local Open Scope R_scope.

Definition parabola (a b c x : R) : R := a + b * x + c * x ^ 2.

(** [ds] has the slope at each point of the parabola through that point and its two neighbours; the first and the last point use the
    parabola of their neighbour. *)
Definition slopes (xs fs ds : list R) : Prop :=
  length ds = length fs /\
  forall i, (i < length fs)%nat -> exists j a b c,
    (j + 2 < length fs)%nat /\ (i = O -> j = O) /\ ((0 < i)%nat -> i + 1 = length fs -> j + 3 = length fs)%nat /\
    ((0 < i)%nat -> (i + 1 < length fs)%nat -> i = (j + 1)%nat) /\
    (forall k, (j <= k <= j + 2)%nat -> nth k fs 0 = parabola a b c (nth k xs 0)) /\
    nth i ds 0 = b + 2 * c * nth i xs 0.

(** The pixels of a row whose flux is between 0.1 and 0.9: their positions, in order. *)
Inductive middling : nat -> list R -> list (nat * R) -> Prop :=
| mid_nil : forall i, middling i [] []
| mid_in : forall i f row l, 0.1 < f < 0.9 -> middling (S i) row l -> middling i (f :: row) ((i, f) :: l)
| mid_out : forall i f row l, ~ 0.1 < f < 0.9 -> middling (S i) row l -> middling i (f :: row) l.

Definition average (l : list R) : R := fold_right Rplus 0 l / INR (length l).

(** |f''| / (1 + f'^2)^(3/2) *)
Definition bending (p pp : R) : R := Rabs pp / Rpower (1 + p ^ 2) (3 / 2).

(** The mean absolute curvature of a row of pixels [step] apart. *)
Definition mean_curvature (step : R) (row : list R) (c : R) : Prop :=
  exists l, middling 0 row l /\
    ((length l <= 2)%nat /\ c = 0 \/
     (2 < length l)%nat /\ exists p pp, let xs := map (fun q => INR (fst q) * step) l in
       slopes xs (map snd l) p /\ slopes xs p pp /\ c = average (map (fun q => bending (fst q) (snd q)) (combine p pp))).

(** The positive members of a list, in order. *)
Inductive positives : list R -> list R -> Prop :=
| pos_nil : positives [] []
| pos_keep : forall c cs out, 0 < c -> positives cs out -> positives (c :: cs) (c :: out)
| pos_drop : forall c cs out, c <= 0 -> positives cs out -> positives (c :: cs) out.

(** [secs]: each spectrum cut in [m] sections of [k + 1] pixels, overlapping by one, each divided by its maximum (zero where the
    maximum is zero); the first sections of all spectra first. *)
Definition sectioned (m k : nat) (flux secs : list (list R)) : Prop :=
  length secs = (m * length flux)%nat /\
  forall i j row, (i < m)%nat -> nth_error flux j = Some row ->
    exists sec mx, window (i * k) (k + 1) row sec /\ is_max sec mx /\
      nth_error secs (i * length flux + j) = Some (map (fun x => if Req_EM_T mx 0 then 0 else x / mx) sec).

(** The pixels with some flux. *)
Definition bright (secs : list (list R)) : list R := filter (fun x => if Rlt_dec 0 x then true else false) (concat secs).

(** Each pixel with some flux to the power [s]. *)
Definition powered (s : R) (secs : list (list R)) : list (list R) := map (map (fun x => if Rlt_dec 0 x then Rpower x s else x)) secs.

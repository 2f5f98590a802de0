(** Specification vocabulary for C91 to C93. *)
From Coq Require Import List Bool ZArith Reals Lra Lia.
From Verif Require Import FloatModel.
Import ListNotations.
Local Open Scope R_scope.

(** A number of 24 or 53 bits: m * 2^e. *)
Definition is_float (p : prec) (x : R) : Prop :=
  exists m e : Z, x = IZR m * powerRZ 2 e /\
    match p with
    | Single => (Z.abs m < 16777216 /\ -149 <= e)%Z
    | Double => (Z.abs m < 9007199254740992 /\ -1074 <= e)%Z
    end.

(** Half the distance of one to the next number, half the least positive number, and the power of two that is too large. *)
Definition unit (p : prec) : R := match p with Single => / 2 ^ 24 | Double => / 2 ^ 53 end.
Definition tiny_half (p : prec) : R := match p with Single => / 2 ^ 150 | Double => / 2 ^ 1075 end.
Definition top (p : prec) : R := match p with Single => 2 ^ 128 | Double => 2 ^ 1024 end.

Definition total (l : list R) : R := fold_right Rplus 0 l.

(** The contributions of a segment; [None]: no particle is near a line. *)
Definition added (s : option (list R)) : list R := match s with None => [] | Some cs => cs end.

Definition all_added (segs : list (option (list R))) : list R := concat (map added segs).

(** All contributions are numbers of 53 bits that are not negative. *)
Definition proper (segs : list (option (list R))) : Prop := Forall (fun c => 0 <= c /\ is_float Double c) (all_added segs).

(** What one gets by raising contributions or adding further ones. *)
Inductive raised : list R -> list R -> Prop :=
| raised_nil : raised [] []
| raised_more : forall c c' l l', c <= c' -> raised l l' -> raised (c :: l) (c' :: l')
| raised_new : forall c l l', 0 <= c -> raised l l' -> raised l (c :: l').
Definition raised_segment (s s' : option (list R)) : Prop :=
  match s, s' with Some cs, Some cs' => raised cs cs' | None, None => True | _, _ => False end.

(** The order of numbers that are not NaN. *)
Definition not_above (a b : fl) : Prop :=
  match a, b with
  | Fin x, Fin y => x <= y
  | Fin _, PInf | PInf, PInf => True
  | _, _ => False
  end.

(** The pixels a factor is computed from. *)
Definition used (thresh : R) (tau : list R) : list R := filter (fun t => if Rlt_dec thresh t then false else true) tau.

(** The segments of all ranks. *)
Definition segments (ranks : list (option (list R) * list (option (list R)))) : list (option (list R)) :=
  concat (map (fun r => fst r :: snd r) ranks).

(** A flux between zero and one. *)
Definition in_unit (p : prec) (a : fl) : Prop := exists x, a = Fin x /\ is_float p x /\ 0 <= x <= 1.

(** The value of a finite number. *)
Definition value (a : fl) : R := match a with Fin x => x | _ => 0 end.

(** An exponential function of the C library: for arguments up to zero a number of 53 bits between zero and one. *)
Definition good_exp (expf : R -> R) : Prop := expf 0 = 1 /\ forall x, x <= 0 -> 0 <= expf x <= 1 /\ is_float Double (expf x).

(** The flux of a pixel of optical depth [t] times [scale]; [exp] of minus infinity is zero. *)
Definition transmitted (expf : R -> R) (scale t : R) : fl :=
  match finite Double (- scale * t) with Fin x => Fin (expf x) | PInf => PInf | _ => Fin 0 end.

(** Every pass computes its sums from [tau], in whatever order. *)
Definition passes (expf : R -> R) (tau : list R) (thresh : R) (run : nat -> R -> pass) : Prop :=
  forall k s, 0 < s -> one_pass expf tau thresh s (run k s).

(** The exponential, rounded correctly. *)
Definition rounded_exp (x : R) : R := rnd Double (exp x).

(** Model of the evaluation of the Voigt profile: fake_spectra/singleabs.h:56-61 and the parts of
    fake_spectra/Faddeeva.cpp which it reaches (w with the default relerr = 0, sinc, sinh_taylor and erfcx).

    Doubles are modelled as real numbers: rounding, overflow, infinities, NaN and signed zeros are not modelled.
    [w_im] (Faddeeva.cpp:1863-1890), which gives only the imaginary part on the real axis, is any function. *)
From Coq Require Import Reals ZArith Lra.
From Coquelicot Require Import Coquelicot.
From Coq Require Import List.
From Flocq Require Import Core.Raux.
From Verif Require Import FaddTable.
Import ListNotations.
Local Open Scope R_scope.

(** How an evaluation of w (Faddeeva.cpp:679-971) ends: a complex number, a read past the end of the table expa2n2, or a loop which is still
    running after the allowed number of turns. *)
Inductive outcome :=
| Value (w : C)
| OutOfTable
| Unfinished.

(** A literal of the tables of Faddeeva.cpp:622-675 and 1012-1415: a whole number times a power of ten. *)
Definition lit (p : Z * Z) : R := IZR (fst p) * powerRZ 10 (snd p).

(** sinc, Faddeeva.cpp:606-610 *)
Definition sinc (x sinx : R) : R :=
  if Rlt_dec (Rabs x) 0.0001 then 1 - 0.1666666666666666666667 * x * x else sinx / x.

(** sinh_taylor, Faddeeva.cpp:612-616 *)
Definition sinh_taylor (x : R) : R :=
  x * (1 + (x * x) * (0.1666666666666666666667 + 0.00833333333333333333333 * (x * x))).

(** sqr, Faddeeva.cpp:618 *)
Definition sqr (x : R) : R := x * x.

(** copysign(v, s) for a non-zero s: C library. *)
Definition copysign (v s : R) : R := if Rlt_dec s 0 then - Rabs v else Rabs v.

(** The polynomial of one case of erfcx_y100 in Horner form: Faddeeva.cpp:1012-1415. *)
Fixpoint horner (cs : list (Z * Z)) (t : R) : R :=
  match cs with
  | [] => 0
  | [c] => lit c
  | c :: rest => lit c + horner rest t * t
  end.

(** erfcx_y100, Faddeeva.cpp:1012-1419: (int) y100 chooses the case, 1.0 after the switch. *)
Definition erfcx_y100 (y100 : R) : R :=
  let k := Ztrunc y100 in
  if andb (Z.leb 0 k) (Z.ltb k 100)
  then horner (nth (Z.to_nat k) erfcx_rows []) (2 * y100 - IZR (2 * k + 1))
  else 1.

(** The constant 1/sqrt(pi), Faddeeva.cpp:729 and 1425. *)
Definition ispi : R := 0.56418958354775628694807945156.

(** erfcx, Faddeeva.cpp:1421-1439. For x < -26.7 the code returns HUGE_VAL, which is not a real number: None. *)
Definition erfcx (x : R) : option R :=
  if Rle_dec 0 x then
    if Rlt_dec 50 x then
      if Rlt_dec 50000000 x then Some (ispi / x)
      else Some (ispi * ((x * x) * (x * x + 4.5) + 2) / (x * ((x * x) * (x * x + 5) + 3.75)))
    else Some (erfcx_y100 (400 / (4 + x)))
  else if Rlt_dec x (- 26.7) then None
  else if Rlt_dec x (- 6.1) then Some (2 * exp (x * x))
  else Some (2 * exp (x * x) - erfcx_y100 (400 / (4 - x))).

(** The constants used when relerr <= DBL_EPSILON, Faddeeva.cpp:689-694. *)
Definition eps : R := / 4503599627370496.
(** Faddeeva.cpp:689-694, with the definition above. *)
Definition a_ : R := 0.518321480430085929872.
(** Faddeeva.cpp:689-694, with the definition above. *)
Definition c_ : R := 0.329973702884629072537.
(** Faddeeva.cpp:689-694, with the definition above. *)
Definition a2_ : R := 0.268657157075235951582.

(** The five running sums of w, Faddeeva.cpp:707. *)
Record sums := { s1 : R; s2 : R; s3 : R; s4 : R; s5 : R }.
(** Their initial values, Faddeeva.cpp:707. *)
Definition zero_sums : sums := {| s1 := 0; s2 := 0; s3 := 0; s4 := 0; s5 := 0 |}.

(** The loop of Faddeeva.cpp:837-850 (x < 5e-4) from the n-th turn on; [tab] is what is left of expa2n2, None a read
    past its end. *)
Fixpoint small_loop (x y expx2 exp2ax expm2ax : R) (tab : list (Z * Z)) (n : nat) (p m : R) (s : sums) : option sums :=
  match tab with
  | [] => None
  | e :: tab' =>
      let coef := lit e * expx2 / (a2_ * (INR n * INR n) + y * y) in
      let p' := p * exp2ax in
      let m' := m * expm2ax in
      let s' := {| s1 := s1 s + coef; s2 := s2 s + coef * m'; s3 := s3 s + coef * p'; s4 := s4 s;
                   s5 := s5 s + coef * (2 * a_) * INR n * sinh_taylor ((2 * a_) * INR n * x) |} in
      if Rlt_dec (coef * p') (eps * s3 s') then Some s'
      else small_loop x y expx2 exp2ax expm2ax tab' (S n) p' m' s'
  end.

(** The loop of Faddeeva.cpp:855-866 (x >= 5e-4), likewise. *)
Fixpoint mid_loop (y expx2 exp2ax expm2ax : R) (tab : list (Z * Z)) (n : nat) (p m : R) (s : sums) : option sums :=
  match tab with
  | [] => None
  | e :: tab' =>
      let coef := lit e * expx2 / (a2_ * (INR n * INR n) + y * y) in
      let p' := p * exp2ax in
      let m' := m * expm2ax in
      let s' := {| s1 := s1 s + coef; s2 := s2 s + coef * m'; s3 := s3 s + coef * p';
                   s4 := s4 s + (coef * m') * (a_ * INR n); s5 := s5 s + (coef * p') * (a_ * INR n) |} in
      if Rlt_dec ((coef * p') * (a_ * INR n)) (eps * s5 s') then Some s'
      else mid_loop y expx2 exp2ax expm2ax tab' (S n) p' m' s'
  end.

(** The while loop of Faddeeva.cpp:960-966: np uses dn before its increment, tp uses it after. None: still running
    after [fuel] turns. *)
Fixpoint up_loop (fuel : nat) (y dx : R) (n0 dn : Z) (s : sums) : option sums :=
  match fuel with
  | O => None
  | S f =>
      let np := IZR (n0 + dn) in
      let tp := exp (- sqr (a_ * IZR (dn + 1) + dx)) / (a2_ * (np * np) + y * y) in
      let s' := {| s1 := s1 s; s2 := s2 s; s3 := s3 s + tp; s4 := s4 s; s5 := s5 s + a_ * np * tp |} in
      if Rlt_dec (a_ * np * tp) (eps * s5 s') then Some s' else up_loop f y dx n0 (dn + 1) s'
  end.

(** The for loop of Faddeeva.cpp:950-959, followed by the while loop when it is used up; [left] bounds the number of
    turns still possible (n0 - dn). *)
Fixpoint both_loop (fuel left : nat) (y dx exp1 : R) (n0 dn : Z) (exp1dn : R) (s : sums) : option sums :=
  match left with
  | O => up_loop fuel y dx n0 dn s
  | S l =>
      let np := IZR (n0 + dn) in
      let nm := IZR (n0 - dn) in
      let tp0 := exp (- sqr (a_ * IZR dn + dx)) in
      let e' := exp1dn * exp1 in
      let tm := tp0 * e' / (a2_ * (nm * nm) + y * y) in
      let tp := tp0 / (a2_ * (np * np) + y * y) in
      let s' := {| s1 := s1 s; s2 := s2 s; s3 := s3 s + (tp + tm); s4 := s4 s;
                   s5 := s5 s + a_ * (np * tp + nm * tm) |} in
      if Rlt_dec (a_ * (np * tp + nm * tm)) (eps * s5 s') then Some s'
      else both_loop fuel l y dx exp1 n0 (dn + 1) e' s'
  end.

(** The continued fraction loop of Faddeeva.cpp:758-763: nu is a whole or half number, so it is counted by k = 2 nu,
    which runs down to 1. *)
Fixpoint cf_loop (k : nat) (xs ya wr wi : R) : R * R :=
  match k with
  | O => (wr, wi)
  | S k' =>
      let nu := 0.5 * INR k in
      let denom := nu / (wr * wr + wi * wi) in
      cf_loop k' xs ya (xs - wr * denom) (ya + wi * denom)
  end.

(** The test of Faddeeva.cpp:712-717: is the continued fraction used? *)
Definition cf_region (x ya : R) : Prop :=
  7 < ya \/ (6 < x /\ (0.1 < ya \/ (8 < x /\ 0.0000000001 < ya) \/ 28 < x)).

(** The same test as a decision, Faddeeva.cpp:712-717. *)
Definition cf_region_dec (x ya : R) : {cf_region x ya} + {~ cf_region x ya}.
Proof.
  unfold cf_region.
  destruct (Rlt_dec 7 ya); [left; tauto |].
  destruct (Rlt_dec 6 x); [| right; tauto].
  destruct (Rlt_dec 0.1 ya); [left; tauto |].
  destruct (Rlt_dec 28 x); [left; tauto |].
  destruct (Rlt_dec 8 x); [| right; tauto].
  destruct (Rlt_dec 0.0000000001 ya); [left; tauto | right; tauto].
Defined.

(** The value [ret] of the continued fraction region, Faddeeva.cpp:731-768 (the infinite ya of 739-741 is left out). *)
Definition cf_value (x ya xs : R) : C :=
  if Rlt_dec 4000 (x + ya) then
    if Rlt_dec 10000000 (x + ya) then
      if Rlt_dec ya x then
        let yax := ya / xs in
        let denom := ispi / (xs + yax * ya) in
        (denom * yax, denom)
      else
        let xya := xs / ya in
        let denom := ispi / (xya * xs + ya) in
        (denom, denom * xya)
    else
      let dr := xs * xs - ya * ya - 0.5 in
      let di := 2 * xs * ya in
      let denom := ispi / (dr * dr + di * di) in
      (denom * (xs * di - ya * dr), denom * (xs * dr + ya * di))
  else
    let nu := Zfloor (3.9 + 11.398 / (0.08254 * x + 0.1421 * ya + 0.2023)) in
    let (wr, wi) := cf_loop (Z.to_nat (nu - 1)) xs ya xs ya in
    let denom := ispi / (wr * wr + wi * wi) in
    (denom * wi, denom * wr).

(** finish, Faddeeva.cpp:968-970 *)
Definition finish (x0 y : R) (ret : C) (s : sums) : C :=
  (fst ret + (0.5 * c_) * y * (s2 s + s3 s), snd ret + (0.5 * c_) * copysign (s5 s - s4 s) x0).

(** [ret] for x < 10, Faddeeva.cpp:905-921. None: erfcx gave no real number. *)
Definition mid_ret (x0 x y expx2 : R) (s : sums) : option C :=
  match (if Rlt_dec (- 6) y then option_map (Rmult expx2) (erfcx y) else Some (2 * exp (y * y - x * x))) with
  | None => None
  | Some expx2erfcxy =>
      Some (if Rlt_dec 5 y then
              let sinxy := sin (x * y) in
              ((expx2erfcxy - c_ * y * s1 s) * cos (2 * x * y) + (c_ * x * expx2) * sinxy * sinc (x * y) sinxy, 0)
            else
              let xs := x0 in
              let sinxy := sin (xs * y) in
              let sin2xy := sin (2 * xs * y) in
              let cos2xy := cos (2 * xs * y) in
              let coef1 := expx2erfcxy - c_ * y * s1 s in
              let coef2 := c_ * xs * expx2 in
              (coef1 * cos2xy + coef2 * sinxy * sinc (xs * y) sinxy,
               coef2 * sinc (2 * xs * y) sin2xy - coef1 * sin2xy))
  end.

Section W.
Variable w_im : R -> R.

(** w, Faddeeva.cpp:679-971, with relerr = 0 at the point x0 + i y; [fuel] bounds the turns of the while loop at 960.
    The precomputed-table branches only, since relerr becomes DBL_EPSILON. HUGE_VAL from erfcx is reported as
    Unfinished as well (it needs y < -26.7). *)
Definition w (fuel : nat) (x0 y : R) : outcome :=
  if Req_EM_T x0 0 then
    match erfcx y with Some v => Value (v, x0) | None => Unfinished end
  else if Req_EM_T y 0 then Value (exp (- sqr x0), w_im x0)
  else
    let x := Rabs x0 in
    let ya := Rabs y in
    if cf_region_dec x ya then
      let xs := if Rlt_dec y 0 then - x0 else x0 in
      let ret := cf_value x ya xs in
      if Rlt_dec y 0 then
        let u := (ya - xs) * (xs + ya) in
        let v := 2 * xs * y in
        Value (2 * (exp u * cos v) - fst ret, 2 * (exp u * sin v) - snd ret)
      else Value ret
    else if Rlt_dec x 10 then
      let small := Rlt_dec x 0.0005 in
      let x2 := x * x in
      let ax2 := 1.036642960860171859744 * x in
      let expx2 := if small then 1 - x2 * (1 - 0.5 * x2) else exp (- x * x) in
      let exp2ax := if small then 1 + ax2 * (1 + ax2 * (0.5 + 0.166666666666666666667 * ax2)) else exp ((2 * a_) * x) in
      let expm2ax := if small then 1 - ax2 * (1 - ax2 * (0.5 - 0.166666666666666666667 * ax2)) else 1 / exp2ax in
      match (if small then small_loop x y expx2 exp2ax expm2ax expa2n2 1 1 1 zero_sums
             else mid_loop y expx2 exp2ax expm2ax expa2n2 1 1 1 zero_sums) with
      | None => OutOfTable
      | Some s => match mid_ret x0 x y expx2 s with
                  | None => Unfinished
                  | Some ret => Value (finish x0 y ret s)
                  end
      end
    else
      let n0 := Zfloor (x / a_ + 0.5) in
      let dx := a_ * IZR n0 - x in
      let t0 := exp (- dx * dx) / (a2_ * (IZR n0 * IZR n0) + y * y) in
      let s := {| s1 := 0; s2 := 0; s3 := t0; s4 := 0; s5 := a_ * IZR n0 * t0 |} in
      match both_loop fuel (Z.to_nat (n0 - 1)) y dx (exp (4 * a_ * dx)) n0 1 1 s with
      | None => Unfinished
      | Some s => Value (finish x0 y (exp (- x * x), 0) s)
      end.

(** profile, singleabs.h:56-61: the real part of w; None when the evaluation does not end in a number. *)
Definition profile (fuel : nat) (uu aa : R) : option R :=
  match w fuel uu aa with Value v => Some (fst v) | _ => None end.
End W.

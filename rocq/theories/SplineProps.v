(** C69: the adaptive spline fit. *)
From Coq Require Import ZArith List Reals Bool Lra Lia Sorted.
From Verif Require Import SplineModel SplineSpec SplineProofs SplineProofs2 SplineProofs3 SplineProofs4 SplineProofs5.
Import ListNotations.
Local Open Scope R_scope.

(** C69 (the refinement ends): whatever the fitting routine does, after fewer rounds than there are pixels there is a result or an
    exception. *)
Theorem C69_ends : forall (spline : Type) (lsq : list Z -> option spline) at_pixel vmax chi_min seg_min ini n flux, 0 < vmax ->
  exists r, r <> OutOfFuel /\
    forall fuel, (Z.to_nat n < fuel)%nat -> spline_fit lsq at_pixel fuel vmax chi_min seg_min ini n flux = r.
Proof. exact C69_ends_aux. Qed.
Print Assumptions C69_ends.

(** C69 (what is returned): the least squares spline on increasing breakpoints inside the spectrum, evaluated at each pixel.  The
    breakpoints contain the multiples of the initial spacing; no segment is shorter than the shortest allowed one or the initial
    spacing, save that the last may be shorter by one pixel.  No segment could be halved with a gain above the threshold. *)
Theorem C69_result : forall (spline : Type) (lsq : list Z -> option spline) at_pixel fuel vmax chi_min seg_min ini n flux br s vals,
  0 < vmax -> spline_fit lsq at_pixel fuel vmax chi_min seg_min ini n flux = Done (br, s, vals) ->
  exists step k, step = vmax / IZR (n - 1) /\ (2 <= n)%Z /\ step < seg_min /\ nearest (ini / step) k /\ (0 < k < n)%Z /\
    breaks n br /\ lsq br = Some s /\
    length vals = Z.to_nat n /\ (forall i, (0 <= i < n)%Z -> nth (Z.to_nat i) vals 0 = at_pixel s i) /\
    (forall a b, neighbours (0%Z :: br) a b -> Rmin seg_min (IZR k * step) <= IZR (b - a) * step) /\
    Rmin seg_min (IZR k * step) - step <= IZR (n - 1 - last (0%Z :: br) 0%Z) * step /\
    (forall i, (1 <= i)%Z -> (k * i + k <= n - 1)%Z -> In (k * i)%Z br) /\
    exists next s', halved n br next /\ lsq next = Some s' /\
      forall a b, neighbours (0%Z :: br ++ [n]) a b ->
        let e := Z.min b (n - 1) in let m := ((a + b) / 2)%Z in
        variance a e flux = 0 \/ residual a e flux (at_pixel s) - residual a e flux (at_pixel s') <= chi_min \/
        IZR (e - m) * step < seg_min \/ IZR (m - a) * step < seg_min.
Proof. exact C69_result_aux. Qed.
Print Assumptions C69_result.

(** C69 (why a breakpoint is there): each is a multiple of the initial spacing, or the middle of a segment of an earlier set of
    breakpoints, where halving all segments gained more than the threshold and both parts are long enough. *)
Theorem C69_added : forall (spline : Type) (lsq : list Z -> option spline) at_pixel fuel vmax chi_min seg_min ini n flux br s vals,
  0 < vmax -> spline_fit lsq at_pixel fuel vmax chi_min seg_min ini n flux = Done (br, s, vals) ->
  let step := vmax / IZR (n - 1) in
  forall x, In x br -> (exists k i, nearest (ini / step) k /\ (1 <= i)%Z /\ x = (k * i)%Z) \/
    exists before a b s0 next s1, incl before br /\ ~ In x before /\ breaks n before /\ lsq before = Some s0 /\ halved n before next /\ lsq next = Some s1 /\
      neighbours (0%Z :: before ++ [n]) a b /\ (a + b - 1 <= 2 * x <= a + b + 1)%Z /\
      let e := Z.min b (n - 1) in let m := ((a + b) / 2)%Z in
      variance a e flux <> 0 /\ chi_min < residual a e flux (at_pixel s0) - residual a e flux (at_pixel s1) /\
      seg_min <= IZR (e - m) * step /\ seg_min <= IZR (m - a) * step.
Proof. exact C69_added_aux. Qed.
Print Assumptions C69_added.

(** C69 (failures of the arguments). *)
Theorem C69_errors : forall (spline : Type) (lsq : list Z -> option spline) at_pixel fuel vmax chi_min seg_min ini n flux,
  0 < vmax -> (2 <= n)%Z ->
  let step := vmax / IZR (n - 1) in
  let r := spline_fit lsq at_pixel fuel vmax chi_min seg_min ini n flux in
  (r = Resolution <-> seg_min <= step) /\
  (step < seg_min -> Rabs ini < step / 2 -> r = ZeroSpacing) /\
  (step < seg_min -> vmax + step / 2 < ini \/ ini < - (step / 2) -> r = NoBreak).
Proof. exact C69_errors_aux. Qed.
Print Assumptions C69_errors.

(** C69 (no other failure): with a shortest segment above two pixels and an initial spacing above two and a half, the knots are always
    acceptable, and if the least squares problem can be solved for each set of breakpoints there is a result. *)
Theorem C69_knots : forall (spline : Type) (lsq : list Z -> option spline) at_pixel fuel vmax chi_min seg_min ini n flux,
  0 < vmax -> (2 <= n)%Z -> (Z.to_nat n < fuel)%nat ->
  let step := vmax / IZR (n - 1) in
  2 * step < seg_min -> 5 / 2 * step < ini < vmax + step / 2 ->
  (forall br, breaks n br -> lsq br <> None) ->
  exists br s vals, spline_fit lsq at_pixel fuel vmax chi_min seg_min ini n flux = Done (br, s, vals).
Proof. exact C69_knots_aux. Qed.
Print Assumptions C69_knots.

(** C69 (the shortest segment is not respected at the end): the last segment may be one pixel too short, as the end is taken one past
    the last pixel and the middle is rounded differently. *)
Theorem C69_last_refuted : exists (lsq : list Z -> option (list Z)) at_pixel fuel vmax chi_min seg_min ini n flux br s vals,
  let step := vmax / IZR (n - 1) in
  2 * step < seg_min < ini /\ ini < vmax /\
  spline_fit lsq at_pixel fuel vmax chi_min seg_min ini n flux = Done (br, s, vals) /\
  IZR (n - 1 - last br 0%Z) * step < seg_min.
Proof.
  exists Some, (exact_from 0), 8%nat, 6, 3, 3, 4, 7%Z, ramp, [4%Z], [4%Z], (map ramp [0; 1; 2; 3; 4; 5; 6]%Z).
  cbv zeta. change (7 - 1)%Z with 6%Z. cbn [last]. change (6 - 4)%Z with 2%Z. split; [lra|]. split; [lra|]. split; [exact run7|]. lra.
Qed.
Print Assumptions C69_last_refuted.

(** C69 (two pixels are too few): with a shortest segment of two pixels the end of the spectrum may become a knot, which the fitting
    routine refuses, although it can fit each valid set of breakpoints. *)
Theorem C69_knots_refuted : exists (lsq : list Z -> option (list Z)) at_pixel fuel vmax chi_min seg_min ini n flux,
  let step := vmax / IZR (n - 1) in
  step < seg_min < ini /\ ini < vmax /\ (forall br, lsq br <> None) /\
  spline_fit lsq at_pixel fuel vmax chi_min seg_min ini n flux = BadKnots.
Proof.
  exists Some, (exact_from 1), 9%nat, 7, 1, 2, 3, 8%Z, ramp. cbv zeta. change (8 - 1)%Z with 7%Z.
  split; [lra|]. split; [lra|]. split; [discriminate|exact run8].
Qed.
Print Assumptions C69_knots_refuted.

(** The hypotheses can be met: a run which refines once, and default-like arguments. *)
Example spline_case : exists br s vals, spline_fit Some (exact_from 0) 8 6 3 3 4 7 ramp = Done (br, s, vals) /\ br = [4%Z].
Proof. do 3 eexists. split; [exact run7|reflexivity]. Qed.
Example spline_hyp : let step := 1000 / IZR (101 - 1) in 2 * step < 30 /\ 5 / 2 * step < 60 < 1000 + step / 2.
Proof. cbv zeta. change (101 - 1)%Z with 100%Z. lra. Qed.
Example spline_breaks : breaks 7 [2; 4]%Z /\ halved 7 [4]%Z [2; 4; 5]%Z.
Proof.
  split; [split; [repeat constructor|repeat constructor; lia]|]. apply (next_halved 7 [4]%Z); [lia| |reflexivity].
  split; [repeat constructor|repeat constructor; lia].
Qed.

(** Properties C84 and C85: metallicities and the distribution of equivalent widths. *)
From Coq Require Import Ascii String ZArith List Bool Reals Lra Lia.
From Verif Require Import FluxSpec MetalModel MetalSpec.
From Verif Require MetalProofs MetalProofs2.
Import ListNotations.
Local Open Scope R_scope.

(** ** C84 *)

(** Without a width: metals over hydrogen of the whole sightline, in solar units; a NaN or infinity for a sightline without hydrogen. *)
Theorem C84_total : forall width dvbin MM HH, width <= 0 -> length MM = length HH ->
  exists qs, get_metallicity width dvbin MM HH = Some qs /\ length qs = length MM /\
    forall i mm hh, nth_error MM i = Some mm -> nth_error HH i = Some hh ->
      exists q, nth_error qs i = Some q /\ ratio (sum mm) (sum hh) (0.0134 / 0.7381) q.
Proof. exact MetalProofs.C84_total_aux. Qed.
Print Assumptions C84_total.

(** With a width that covers [w] whole pixels: the same over the pixels p - w, ..., p + w - 1 of the periodic spectrum, where p is the
    first pixel with the most hydrogen, and at most half of the pixels on each side. *)
Theorem C84_window : forall width dvbin MM HH w, 0 < width -> 0 < dvbin -> whole width dvbin w -> HH <> [] ->
  length MM = length HH -> (forall i mm hh, nth_error MM i = Some mm -> nth_error HH i = Some hh -> length mm = length hh /\ hh <> []) ->
  exists qs, get_metallicity width dvbin MM HH = Some qs /\ length qs = length MM /\
    forall i mm hh p, nth_error MM i = Some mm -> nth_error HH i = Some hh -> first_peak hh p ->
      let w' := Nat.min w (length hh / 2) in
      exists q, nth_error qs i = Some q /\ ratio (around mm p w') (around hh p w') (0.0134 / 0.7381) q.
Proof. exact MetalProofs.C84_window_aux. Qed.
Print Assumptions C84_window.

(** With a width the only error is a spectrum without pixels. *)
Theorem C84_error : forall width dvbin MM HH, 0 < width -> MM <> [] -> length MM = length HH ->
  (get_metallicity width dvbin MM HH = None <-> In [] HH).
Proof. exact MetalProofs.C84_error_aux. Qed.
Print Assumptions C84_error.

(** The metallicity of a sightline is between the smallest and the largest of its pixels; gas of a constant metallicity has that one. *)
Theorem C84_between : forall width dvbin MM HH qs i mm hh q z1 z2, 0 < dvbin -> width <= 0 \/ dvbin <= width ->
  length MM = length HH -> (forall i mm hh, nth_error MM i = Some mm -> nth_error HH i = Some hh -> length mm = length hh /\ (2 <= length hh)%nat) ->
  get_metallicity width dvbin MM HH = Some qs -> nth_error MM i = Some mm -> nth_error HH i = Some hh -> nth_error qs i = Some q ->
  (forall j, (j < length hh)%nat -> 0 < nth j hh 0 /\ z1 * (0.0134 / 0.7381) * nth j hh 0 <= nth j mm 0 <= z2 * (0.0134 / 0.7381) * nth j hh 0) ->
  exists z, q = Num z /\ z1 <= z <= z2.
Proof. exact MetalProofs.C84_between_aux. Qed.
Print Assumptions C84_between.

(** Moving both spectra periodically, through the edges of the box or not, changes nothing, if one pixel has the most hydrogen. *)
Theorem C84_moved : forall width dvbin mm hh mm' hh' k, 0 < dvbin -> hh <> [] -> length mm = length hh ->
  moved k mm mm' -> moved k hh hh' ->
  (exists p, (p < length hh)%nat /\ forall i, (i < length hh)%nat -> i <> p -> nth i hh 0 < nth p hh 0) ->
  get_metallicity width dvbin [mm'] [hh'] = get_metallicity width dvbin [mm] [hh].
Proof. exact MetalProofs.C84_moved_aux. Qed.
Print Assumptions C84_moved.

(** A width of half of the box is the whole sightline if the number of pixels is even. *)
Theorem C84_wide : forall width dvbin MM HH, 0 < width -> 0 < dvbin -> HH <> [] -> length MM = length HH ->
  (forall i mm hh, nth_error MM i = Some mm -> nth_error HH i = Some hh -> length mm = length hh /\ hh <> [] /\
     Nat.even (length hh) = true /\ INR (length hh) / 2 * dvbin <= width) ->
  get_metallicity width dvbin MM HH = get_metallicity 0 dvbin MM HH.
Proof. exact MetalProofs.C84_wide_aux. Qed.
Print Assumptions C84_wide.

(** The window is not that of +- width: of two spectra that are mirror images at the peak, with metals at one end of the window, one
    has a positive metallicity and the other has none.  For an odd number of pixels this is so even for the widest window. *)
Theorem C84_asymmetric_refuted : forall width dvbin hh p w x, 0 < width -> 0 < dvbin -> whole width dvbin w ->
  (1 <= w)%nat -> (2 * w < length hh)%nat -> first_peak hh p -> (forall j, (j < length hh)%nat -> 0 < nth j hh 0) -> 0 < x ->
  exists mm mm', (forall i, pixel mm (Z.of_nat p - i) = pixel mm' (Z.of_nat p + i)) /\ length mm = length hh /\ length mm' = length hh /\
    pixel mm (Z.of_nat p - Z.of_nat w) = x /\
    get_metallicity width dvbin [mm] [hh] = Some [Num (x / around hh p w / (0.0134 / 0.7381))] /\
    get_metallicity width dvbin [mm'] [hh] = Some [Num 0].
Proof. exact MetalProofs.C84_asymmetric_aux. Qed.
Print Assumptions C84_asymmetric_refuted.

(** A width below that of a pixel gives no number at all. *)
Theorem C84_narrow_refuted : forall width dvbin MM HH qs q, 0 < width < dvbin -> length MM = length HH ->
  (forall i mm hh, nth_error MM i = Some mm -> nth_error HH i = Some hh -> length mm = length hh) ->
  get_metallicity width dvbin MM HH = Some qs -> In q qs -> q = NotFinite.
Proof. exact MetalProofs.C84_narrow_aux. Qed.
Print Assumptions C84_narrow_refuted.

(** The metallicity of an ion is relative to neutral hydrogen and to the solar abundance of the element; a KeyError for any other. *)
Theorem C84_ion : forall species MM HH, length MM = length HH ->
  (forall s, In (species, s) abundances -> exists qs, get_ion_metallicity species MM HH = Some qs /\ length qs = length MM /\
    forall i mm hh, nth_error MM i = Some mm -> nth_error HH i = Some hh ->
      exists q, nth_error qs i = Some q /\ ratio (sum mm) (sum hh) s q) /\
  (~ In species (map fst abundances) -> get_ion_metallicity species MM HH = None).
Proof. exact MetalProofs.C84_ion_aux. Qed.
Print Assumptions C84_ion.

(** ** C85 *)

(** The bins start at the smallest positive width; in each is the number of widths in it, divided by the size of the bin and by the
    number in all bins, so that the distribution integrates to one. *)
Theorem C85_counts : forall ws dv lo hi, 0 < dv -> least ws lo -> greatest ws hi -> lo < hi ->
  let a := ln lo / ln 10 in let b := ln hi / ln 10 in
  exists n centers f,
  a + INR n * dv < b <= a + INR (S n) * dv /\
  eq_width_hist ws dv = Some (centers, f) /\ length centers = n /\ length f = n /\
  exists t, number (fun w => 0 < w /\ ln w / ln 10 <= a + INR n * dv) ws t /\ (0 < t)%nat /\
  (forall i, (i < n)%nat -> nth i centers 0 = a + (INR i + / 2) * dv /\
     exists m, number (fun w => 0 < w /\ in_bin a dv n i (ln w / ln 10)) ws m /\ nth i f 0 = INR m / dv / INR t) /\
  ((0 < n)%nat -> sum (map (fun x => x * dv) f) = 1).
Proof. exact MetalProofs2.C85_counts_aux. Qed.
Print Assumptions C85_counts.

(** The last edge is below the largest width: it is in no bin, and the number by which is divided is less than that of the positive widths. *)
Theorem C85_strongest_refuted : forall ws dv lo hi, 0 < dv -> least ws lo -> greatest ws hi -> lo < hi ->
  let a := ln lo / ln 10 in
  exists centers f t all, eq_width_hist ws dv = Some (centers, f) /\ number (fun w => 0 < w) ws all /\ (t < all)%nat /\
    forall i, (i < length f)%nat -> ~ in_bin a dv (length f) i (ln hi / ln 10) /\
      exists m, number (fun w => 0 < w /\ in_bin a dv (length f) i (ln w / ln 10)) ws m /\ nth i f 0 = INR m / dv / INR t.
Proof. exact MetalProofs2.C85_strong_aux. Qed.
Print Assumptions C85_strongest_refuted.

(** If all widths are within a factor of 10^dv there is no bin at all. *)
Theorem C85_close_refuted : forall ws dv lo hi, 0 < dv -> least ws lo -> greatest ws hi -> ln hi / ln 10 <= ln lo / ln 10 + dv ->
  eq_width_hist ws dv = Some ([], []).
Proof. exact MetalProofs2.C85_close_aux. Qed.
Print Assumptions C85_close_refuted.

(** Without a positive width: an error. *)
Theorem C85_none : forall ws dv, (forall w, In w ws -> w <= 0) -> eq_width_hist ws dv = None.
Proof. exact MetalProofs2.C85_none_aux. Qed.
Print Assumptions C85_none.

(** ** The hypotheses can be met *)

(** A spectrum of five pixels of 2 km/s with its peak in the second. *)
Example C84_example : first_peak [1; 3; 2; 1; 1] 1 /\ whole 3 2 1 /\ whole 1 2 0 /\
  get_metallicity 3 2 [[1; 1; 1; 0; 0]] [[1; 3; 2; 1; 1]] = Some [Num (2 / 4 / (0.0134 / 0.7381))] /\
  moved 2 [1; 3; 2; 1; 1] [1; 1; 1; 3; 2].
Proof.
  assert (P : first_peak [1; 3; 2; 1; 1] 1).
  { split; [cbn; lia|]. split.
    - intros i I. do 5 (destruct i as [|i]; [cbn; lra|]). cbn in I. lia.
    - intros i I. destruct i; [cbn; lra|lia]. }
  assert (W : whole 3 2 1) by (unfold whole; cbn; lra).
  split; [exact P|]. split; [exact W|]. split; [unfold whole; cbn; lra|]. split.
  - destruct (C84_window 3 2 [[1; 1; 1; 0; 0]] [[1; 3; 2; 1; 1]] 1) as [qs [E [L F]]]; try lra; try exact W; try discriminate; [reflexivity| |].
    { intros [|i] mm hh M H; [|destruct i; discriminate]. injection M as <-. injection H as <-. split; [reflexivity|discriminate]. }
    destruct (F 0%nat _ _ 1%nat eq_refl eq_refl P) as [q [N RT]]. rewrite E. destruct qs as [|q' [|? ?]]; try discriminate.
    cbn in N. injection N as ->.
    cbv zeta in RT. change (around [1; 1; 1; 0; 0] 1 _) with (1 + (1 + 0)) in RT. change (around [1; 3; 2; 1; 1] 1 _) with (1 + (3 + 0)) in RT.
    replace (1 + (1 + 0)) with 2 in RT by lra. replace (1 + (3 + 0)) with 4 in RT by lra.
    destruct RT as [[RT _]|[_ ->]]; [lra|reflexivity].
  - split; [reflexivity|]. intros i. unfold pixel. cbn [length]. change (Z.of_nat 5) with 5%Z.
    rewrite <- (Zminus_mod_idemp_l i 2 5). assert (B := Z.mod_pos_bound i 5 ltac:(lia)). set (j := (i mod 5)%Z) in *. clearbody j.
    assert (J : (j = 0 \/ j = 1 \/ j = 2 \/ j = 3 \/ j = 4)%Z) by lia. destruct J as [-> |[-> |[-> |[-> | ->]]]]; reflexivity.
Qed.

(** Three equivalent widths, one of them not positive. *)
Example C85_example : least [0.1; 0; 10] 0.1 /\ greatest [0.1; 0; 10] 10 /\ 0.1 < 10 /\
  least [0.1; 0] 0.1 /\ greatest [0.1; 0] 0.1 /\ ln 0.1 / ln 10 <= ln 0.1 / ln 10 + 0.05.
Proof.
  unfold least, greatest. cbn [In]. repeat split; try lra; try tauto; intros w W; try (intros W'); repeat (destruct W as [<-|W]; [lra|]); destruct W.
Qed.

(** Properties C48, C49 and C57: the statistics program of the C extractor. *)
From Coq Require Import ZArith List Lia Reals Lra.
From Verif Require Import AbsorptionSpec RescaleSpec CstatModel CstatSpec CstatProofs CstatProofs2 CstatProofs3.
Import ListNotations.
Local Open Scope R_scope.

(** C48.  Smoothing replaces every value by the sum over the window of 2h+1 values around it over
    the width, the first value being repeated on the left and zeros being used on the right. *)
Theorem C48_window : forall inp out h width, half_width h width -> length out = length inp ->
  (2 * h <= length inp)%nat ->
  exists o, smooth inp out (Z.of_nat (length inp)) width = Some o /\ length o = length inp /\
    forall i, (i < length inp)%nat -> nth i o 0 = window_mean h (IZR width) (extended inp) i.
Proof. exact C48_window_aux. Qed.
Print Assumptions C48_window.

(** It leaves the arrays exactly when they are shorter than twice the half width. *)
Theorem C48_short : forall inp out h width, half_width h width -> length out = length inp ->
  (smooth inp out (Z.of_nat (length inp)) width = None <-> (length inp < 2 * h)%nat).
Proof. exact C48_short_aux. Qed.
Print Assumptions C48_short.

(** Smoothing does not leave the range of the values and zero. *)
Theorem C48_range : forall inp out h width M o, half_width h width -> length out = length inp ->
  Forall (fun x => 0 <= x <= M) inp -> smooth inp out (Z.of_nat (length inp)) width = Some o ->
  Forall (fun x => 0 <= x <= M) o.
Proof. exact C48_range_aux. Qed.
Print Assumptions C48_range.

(** With an odd width a constant is preserved except in the last h places, where it is damped. *)
Theorem C48_constant : forall c n out h, length out = n -> (2 * h <= n)%nat ->
  exists o, smooth (repeat c n) out (Z.of_nat n) (2 * Z.of_nat h + 1) = Some o /\ length o = n /\
    (forall i, (i + h < n)%nat -> nth i o 0 = c) /\
    (forall i, (i < n <= i + h)%nat -> nth i o 0 = c * (INR (n - i + h) / INR (2 * h + 1))).
Proof. exact C48_constant_aux. Qed.
Print Assumptions C48_constant.

(** The last value of a constant is reduced, although padding with the last value, as the comment in
    the code announces, would preserve it. *)
Theorem C48_edge_refuted : forall c n out h, 0 < c -> (1 <= h)%nat -> length out = n -> (2 * h <= n)%nat ->
  exists o, smooth (repeat c n) out (Z.of_nat n) (2 * Z.of_nat h + 1) = Some o /\
    nth (n - 1) o 0 = c * (INR (h + 1) / INR (2 * h + 1)) /\ nth (n - 1) o 0 < c /\
    window_mean h (INR (2 * h + 1)) (extended_both (repeat c n)) (n - 1) = c.
Proof. exact C48_edge_aux. Qed.
Print Assumptions C48_edge_refuted.

(** With an even width a positive constant is reduced everywhere. *)
Theorem C48_even_refuted : forall c n out h, 0 < c -> length out = n -> (2 * h <= n)%nat ->
  exists o, smooth (repeat c n) out (Z.of_nat n) (2 * Z.of_nat h + 2) = Some o /\
    forall i, (i < n)%nat -> nth i o 0 < c.
Proof. exact C48_even_aux. Qed.
Print Assumptions C48_even_refuted.

(** The hypotheses can be met: width 3 on five values. *)
Example C48_case : exists o, smooth [1; 2; 3; 4; 5] [0; 0; 0; 0; 0] 5 3 = Some o /\
  nth 0 o 0 = 4 / 3 /\ nth 1 o 0 = 2 /\ nth 4 o 0 = 3.
Proof.
  destruct (C48_window [1; 2; 3; 4; 5] [0; 0; 0; 0; 0] 1 3 (or_introl eq_refl) eq_refl) as (o & E & L & N);
    [simpl; lia|].
  exists o. split; [exact E|]. rewrite !N by (simpl; lia).
  unfold window_mean, zsum, extended, rsum. simpl. repeat split; lra.
Qed.

(** C49.  The power spectrum: see [is_power].  The optical depths are left multiplied by the factor. *)
Theorem C49_power : forall fft junk tau s tau_eff numlos nbins, (1 <= numlos)%nat -> (5 <= nbins)%nat ->
  (forall j, length (junk j) = (Nat.div (nbins + 1) 2 - 1)%nat) ->
  exists p, calc_power_spectra fft junk tau s tau_eff numlos nbins = (Some p, map (fun t => t * s) tau) /\
    is_power fft (if Nat.even nbins then Nat.div nbins 2 else 0%nat) s tau_eff numlos nbins tau p.
Proof. exact C49_power_aux. Qed.
Print Assumptions C49_power.

(** With fewer than five pixels arrays are overrun. *)
Theorem C49_short_refuted : forall fft junk tau s tau_eff numlos nbins, (1 <= numlos)%nat -> (nbins < 5)%nat ->
  (forall j, length (junk j) = (Nat.div (nbins + 1) 2 - 1)%nat) ->
  fst (calc_power_spectra fft junk tau s tau_eff numlos nbins) = None.
Proof. exact C49_power_short_aux. Qed.
Print Assumptions C49_short_refuted.

(** Entry 0 is not the power of the mean when the number of pixels is even: it is 0 for every
    constant spectrum. *)
Theorem C49_zero_refuted : forall fft junk m t s tau_eff, (3 <= m)%nat ->
  (forall j, length (junk j) = (Nat.div (2 * m + 1) 2 - 1)%nat) ->
  (forall c, fft (repeat c (2 * m)) 0%nat = (INR (2 * m) * c, 0)) ->
  (forall c, fft (repeat c (2 * m)) m = (0, 0)) ->
  exists p, fst (calc_power_spectra fft junk (repeat t (2 * m)) s tau_eff 1 (2 * m)) = Some p /\
    nth 0 p 0 = 0 /\
    mode_power (2 * m) (fft (contrast s tau_eff (repeat t (2 * m))) 0%nat) =
      (exp (- (s * t)) / exp (- tau_eff) - 1) ^ 2.
Proof. exact C49_zero_aux. Qed.
Print Assumptions C49_zero_refuted.

(** The PDF: whatever the optical depths (positive or not) and the factor, no access outside the table,
    the entries count the pixels by transmission, are not negative and add up to 20. *)
Theorem C49_pdf : forall tau s, tau <> [] ->
  exists d, calc_pdf tau s = Some d /\ is_pdf s tau d /\ rsum d = 20 /\ Forall (fun x => 0 <= x) d.
Proof. exact C49_pdf_aux. Qed.
Print Assumptions C49_pdf.

(** What a run writes: the statistics whose bits are set in the sum of the -s arguments, of the first
    sightlines of the file.  The PDF is that of optical depths multiplied by s if it is asked for alone
    and by s squared if the power spectrum is asked for as well. *)
Theorem C49_main : forall fft junk fuel o f power pdf,
  (forall j, length (junk j) = (Nat.div (f_nbins f + 1) 2 - 1)%nat) -> (1 <= f_nbins f)%nat ->
  statistic_main fft junk fuel o f = Written power pdf ->
  let statistic := fold_left Z.add (o_stats o) 0%Z in
  let used := if Nat.eqb (o_used o) 0 then f_numlos f else o_used o in
  let tau := firstn (f_nbins f * used) (f_data f) in
  let tau_eff := 0.0023 * Rpower (1 + f_redshift f) 3.65 in
  length tau = (f_nbins f * used)%nat /\
  exists s,
    (if o_norescale o then s = 1 else c_mean_flux tau (exp (- tau_eff)) (/ 100000) fuel = Some (CFinite s)) /\
    match power with
    | Some p => Z.testbit statistic 1 = true /\
        is_power fft (if Nat.even (f_nbins f) then Nat.div (f_nbins f) 2 else 0%nat) s tau_eff used (f_nbins f) tau p
    | None => Z.testbit statistic 1 = false
    end /\
    match pdf with
    | Some d => Z.testbit statistic 0 = true /\ rsum d = 20 /\
        is_pdf (if Z.testbit statistic 1 then s * s else s) tau d
    | None => Z.testbit statistic 0 = false
    end.
Proof. exact C49_main_aux. Qed.
Print Assumptions C49_main.

(** A run on at least five pixels, with optical depths for which the rescaling has a solution, ends. *)
Theorem C49_total : forall fft junk o f sstar,
  (forall j, length (junk j) = (Nat.div (f_nbins f + 1) 2 - 1)%nat) -> (5 <= f_nbins f)%nat -> (1 <= f_numlos f)%nat ->
  let statistic := fold_left Z.add (o_stats o) 0%Z in
  let used := if Nat.eqb (o_used o) 0 then f_numlos f else o_used o in
  let tau := firstn (f_nbins f * used) (f_data f) in
  let tau_eff := 0.0023 * Rpower (1 + f_redshift f) 3.65 in
  Z.testbit statistic 0 = true \/ Z.testbit statistic 1 = true ->
  (f_nbins f * used <= length (f_data f))%nat -> absorbing tau ->
  0 < sstar -> mean_transmission sstar tau = exp (- tau_eff) ->
  exists enough, forall fuel, (enough <= fuel)%nat -> exists power pdf, statistic_main fft junk fuel o f = Written power pdf.
Proof. exact C49_total_aux. Qed.
Print Assumptions C49_total.

(** Five pixels which transmit more than 99% each after rescaling: asked for together with the power
    spectrum, the PDF puts all of them in the lowest bin. *)
Theorem C49_twice_refuted : exists f o s n, forall fft junk, (forall j, length (junk j) = 2%nat) ->
  forall fuel, (n <= fuel)%nat -> exists p d,
    statistic_main fft junk fuel o f = Written (Some p) (Some d) /\
    c_mean_flux (f_data f) (exp (- (0.0023 * Rpower (1 + f_redshift f) 3.65))) (/ 100000) fuel = Some (CFinite s) /\
    Forall (fun t => 0.99 <= exp (- (s * t))) (f_data f) /\ ~ is_pdf s (f_data f) d /\ nth 0 d 0 = 20.
Proof. exact C49_twice_aux. Qed.
Print Assumptions C49_twice_refuted.

(** More sightlines may be asked for than there are: the column densities, which follow the optical
    depths in the file, are then taken for optical depths. *)
Theorem C49_columns_refuted : forall fft junk fuel z nbins numlos extra taus cols, (1 <= nbins)%nat -> (1 <= numlos)%nat ->
  length taus = (nbins * numlos)%nat -> length cols = (nbins * numlos)%nat -> (extra <= numlos)%nat ->
  exists d, statistic_main fft junk fuel (mkOptions [1%Z] (numlos + extra) true) (mkFile z nbins numlos (taus ++ cols)) =
      Written None (Some d) /\
    is_pdf 1 (taus ++ firstn (nbins * extra) cols) d.
Proof. exact C49_columns_aux. Qed.
Print Assumptions C49_columns_refuted.

(** -s 1 given twice asks for the power spectrum and not for the PDF; -s 2 given twice is an error. *)
Theorem C49_repeat_refuted : forall fft junk fuel u r f,
  statistic_main fft junk fuel (mkOptions [1%Z; 1%Z] u r) f = statistic_main fft junk fuel (mkOptions [2%Z] u r) f /\
  statistic_main fft junk fuel (mkOptions [2%Z; 2%Z] u r) f = ErrorExit.
Proof. exact C49_repeat_aux. Qed.
Print Assumptions C49_repeat_refuted.

(** C57.  Whenever some factor sstar > 0 gives the target, the rescaling ends, and the factor is at most
    sstar, with a mean transmission between the target and the target plus tol/(1-tol). *)
Theorem C57_converges : forall tau target tol sstar, absorbing tau -> mean_transmission sstar tau = target ->
  0 < sstar -> 0 < tol < 1 ->
  exists enough s, (forall fuel, (enough <= fuel)%nat -> c_mean_flux tau target tol fuel = Some (CFinite s)) /\
    0 <= s <= sstar /\ target <= mean_transmission s tau <= target + tol / (1 - tol).
Proof. exact C57_converges_aux. Qed.
Print Assumptions C57_converges.

(** A target of 1 or more gives the factor 0 after two iterations. *)
Theorem C57_emission : forall tau target tol fuel, absorbing tau -> 1 <= target -> 0 < tol -> (2 <= fuel)%nat ->
  c_mean_flux tau target tol fuel = Some (CFinite 0).
Proof. exact C57_emission_aux. Qed.
Print Assumptions C57_emission.

(** Without any absorption the factor is an infinity or NaN. *)
Theorem C57_transparent_refuted : forall tau target tol fuel, Forall (fun t => t = 0) tau -> target <= 1 ->
  (1 <= fuel)%nat -> c_mean_flux tau target tol fuel = Some CNotFinite.
Proof. exact C57_transparent_aux. Qed.
Print Assumptions C57_transparent_refuted.

(** The hypotheses can be met: one transparent and one absorbing pixel. *)
Example C57_case : absorbing [0; 1] /\ mean_transmission 1 [0; 1] = (1 + exp (- 1 * 1)) / 2 /\
  exists enough s, (forall fuel, (enough <= fuel)%nat ->
      c_mean_flux [0; 1] ((1 + exp (- 1 * 1)) / 2) (/ 100000) fuel = Some (CFinite s)) /\ 0 <= s <= 1.
Proof.
  assert (A : absorbing [0; 1]).
  { split; [repeat constructor; lra|]. apply Exists_cons_tl, Exists_cons_hd. lra. }
  assert (M : mean_transmission 1 [0; 1] = (1 + exp (- 1 * 1)) / 2).
  { unfold mean_transmission, rsum. cbn [map fold_right length]. rewrite Rmult_0_r, Ropp_0, exp_0.
    replace (- (1 * 1)) with (- 1 * 1) by ring. simpl INR. field. }
  split; [exact A|]. split; [exact M|].
  destruct (C57_converges [0; 1] _ (/ 100000) 1 A M ltac:(lra) ltac:(lra)) as (n & s & H & B & _).
  exists n, s. split; assumption.
Qed.

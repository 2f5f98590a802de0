(** C124: the Voigt parameters of many spectra. *)
From Coq Require Import ZArith List Reals Arith Bool Lia Lra Permutation Sorted.
From Verif Require Import AbsorptionSpec FilterModel FitModel SystemsModel VoigtsetModel VoigtsetSpec VoigtsetProofs VoigtsetProofs2.
Import ListNotations.
Local Open Scope R_scope.

(** Whatever the number of processes and the order in which they finish, the result is that of the spectra one by one, in their order, and
    one failing spectrum fails the whole set. *)
Theorem C124_order : forall dvbin unit fnorm fit workers order verbose close taus,
  (0 < workers)%nat -> schedule workers (length taus) order -> taus <> [] ->
  (forall ns bs, Forall2 (fun tau r => forall workers' order', (0 < workers')%nat -> schedule workers' 1 order' ->
      get_voigt_systems dvbin unit fnorm fit workers' order' verbose close [tau] = Gives (fst r) (snd r)) taus (combine ns bs) -> length ns = length bs ->
    get_voigt_systems dvbin unit fnorm fit workers order verbose close taus = Gives (concat ns) (concat bs)) /\
  (forall tau workers' order', In tau taus -> (0 < workers')%nat -> schedule workers' 1 order' ->
    get_voigt_systems dvbin unit fnorm fit workers' order' verbose close [tau] = Fails ->
    get_voigt_systems dvbin unit fnorm fit workers order verbose close taus = Fails).
Proof. exact C124_order_aux. Qed.
Print Assumptions C124_order.

(** As long as some piece has not finished there is no answer. *)
Theorem C124_waits : forall dvbin unit fnorm fit workers order rest verbose close taus,
  (0 < workers)%nat -> schedule workers (length taus) (order ++ rest) -> rest <> [] ->
  get_voigt_systems dvbin unit fnorm fit workers order verbose close taus = Waits.
Proof. exact C124_waits_aux. Qed.
Print Assumptions C124_waits.

(** The widths are those of all components, spectrum by spectrum and in order of position.  There is a column density for every width,
    that of the same component, exactly if no two neighbours of a spectrum are closer than the merging distance, in particular if this is
    not positive.  The sum of all column densities is that of the components if no spectrum is a single component and shorter than the
    merging distance. *)
Theorem C124_pairs : forall dvbin unit fnorm fit workers order verbose close taus n b, (0 < workers)%nat -> schedule workers (length taus) order ->
  get_voigt_systems dvbin unit fnorm fit workers order verbose close taus = Gives n b ->
  exists comps, Forall2 (fun tau sorted => exists cs, fit tau = Some cs /\ in_order cs sorted /\ sorted <> []) taus comps /\
    b = map (fun c => Rabs (c_width c)) (concat comps) /\
    (length n <= length b)%nat /\
    (length n = length b <-> Forall2 (fun tau sorted => apart ((INR (length tau) - 1) * dvbin) close sorted) taus comps) /\
    (length n = length b -> n = map (fun c => get_column_density unit fnorm (Rabs (c_width c)) (c_amp c)) (concat comps)) /\
    (close <= 0 -> length n = length b) /\
    (Forall2 (fun tau sorted => (2 <= length sorted)%nat \/ close <= (INR (length tau) - 1) * dvbin) taus comps ->
      rsum n = rsum (map (fun c => get_column_density unit fnorm (Rabs (c_width c)) (c_amp c)) (concat comps))).
Proof. exact C124_pairs_aux. Qed.
Print Assumptions C124_pairs.

(** If neighbours in any spectrum are closer than the merging distance there are more widths than column densities. *)
Theorem C124_merged_refuted : forall dvbin unit fnorm fit workers order verbose close taus n b tau cs, (0 < workers)%nat -> schedule workers (length taus) order ->
  get_voigt_systems dvbin unit fnorm fit workers order verbose close taus = Gives n b ->
  In tau taus -> fit tau = Some cs -> (forall sorted, in_order cs sorted -> ~ apart ((INR (length tau) - 1) * dvbin) close sorted) ->
  (length n < length b)%nat.
Proof.
  intros dvbin unit fnorm fit workers order verbose close taus n b tau cs W S G I F A.
  exact (C124_merged_aux dvbin unit fnorm fit workers order verbose close taus n b tau cs (length n) W S G I F A eq_refl).
Qed.
Print Assumptions C124_merged_refuted.

(** The only component of a spectrum shorter than the merging distance gives a width but no column density, and an error if progress is
    printed. *)
Theorem C124_vanish_refuted : forall dvbin unit fnorm fit workers order close tau c, (0 < workers)%nat -> schedule workers 1 order -> fit tau = Some [c] ->
  0 < (INR (length tau) - 1) * dvbin < close ->
  get_voigt_systems dvbin unit fnorm fit workers order false close [tau] = Gives [] [Rabs (c_width c)] /\
  get_voigt_systems dvbin unit fnorm fit workers order true close [tau] = Fails.
Proof. exact C124_vanish_aux. Qed.
Print Assumptions C124_vanish_refuted.

(** Otherwise printing progress changes nothing. *)
Theorem C124_verbose : forall dvbin unit fnorm fit workers order close taus, (0 < workers)%nat -> schedule workers (length taus) order ->
  (forall tau, In tau taus -> close <= (INR (length tau) - 1) * dvbin) ->
  get_voigt_systems dvbin unit fnorm fit workers order true close taus = get_voigt_systems dvbin unit fnorm fit workers order false close taus.
Proof. exact C124_verbose_aux. Qed.
Print Assumptions C124_verbose.

(** One spectrum with no optical depth above 0.0001 and the whole set fails, whatever the minimisers do. *)
Theorem C124_blank_refuted : forall dvbin unit fnorm voigt bounded simplex fit workers order verbose close taus tau,
  (0 < workers)%nat -> schedule workers (length taus) order -> fits dvbin voigt bounded simplex fit ->
  In tau taus -> (forall x, In x tau -> x <= 0.0001) ->
  get_voigt_systems dvbin unit fnorm fit workers order verbose close taus = Fails.
Proof. exact C124_blank_aux. Qed.
Print Assumptions C124_blank_refuted.

(** No spectra are an error, not empty arrays. *)
Theorem C124_empty_refuted : forall dvbin unit fnorm fit workers order verbose close, (0 < workers)%nat -> schedule workers 0 order ->
  get_voigt_systems dvbin unit fnorm fit workers order verbose close [] = Fails.
Proof. intros. rewrite gives_spec by assumption. reflexivity. Qed.
Print Assumptions C124_empty_refuted.

(** ** Examples *)

(** Spectra of four pixels: two components at 1 and 2 found in the other order; one with a single component. *)
Definition sample_fit (tau : list R) : option (list comp) :=
  if Rlt_dec 1 (nth 0 tau 0) then Some [mkComp 2 2 5; mkComp 1 1 3] else Some [mkComp 4 0 7].

Example C124_case : schedule 2 3 [1; 2; 0]%nat /\
  get_voigt_systems 1 1 (fun _ => 1) sample_fit 2 [1; 2; 0]%nat true 0 [[2; 0; 0; 0]; [0; 0; 0; 0]; [3; 0; 0; 0]] = Gives [3; 10; 28; 3; 10] [1; 2; 4; 1; 2] /\
  get_voigt_systems 1 1 (fun _ => 1) sample_fit 2 [1; 2; 0]%nat true 1.5 [[2; 0; 0; 0]; [0; 0; 0; 0]; [3; 0; 0; 0]] = Gives [13; 28; 13] [1; 2; 4; 1; 2].
Proof.
  assert (S : schedule 2 3 [1; 2; 0]%nat).
  { unfold schedule, ceil_div. cbn. apply (Permutation_trans (l' := [1; 0; 2]%nat)); [apply perm_skip, perm_swap|apply perm_swap]. }
  split; [exact S|].
  assert (A : forall close, close = 0 \/ close = 1.5 -> forall tau, (tau = [2; 0; 0; 0] \/ tau = [3; 0; 0; 0]) ->
    helper 1 1 (fun _ => 1) sample_fit true close tau = Some (if Rlt_dec close 1 then [3; 10] else [13], [1; 2])).
  { intros close C tau T. unfold helper, sample_fit. destruct (Rlt_dec 1 (nth 0 tau 0)) as [_|N]; [|exfalso; destruct T as [-> | ->]; cbn in N; lra].
    assert (L : length tau = 4%nat) by (destruct T as [-> | ->]; reflexivity). rewrite L.
    cbn [map systems_start sort_components f_widths f_amps f_means combine fold_right insert_at fst snd c_mean c_width c_amp].
    unfold systems_start, sort_components. cbn [map f_widths f_amps f_means combine fold_right insert_at fst snd].
    destruct (Rle_dec 2 1) as [N|_]; [lra|]. cbn [map fst snd].
    unfold merge. cbn [length Nat.sub update firstn skipn app rsubtract combine map fst snd forallb]. unfold rltb.
    replace (INR 4) with 4 by (cbn; ring).
    destruct (Rlt_dec 0 (2 - 1)) as [_|N]; [|lra]. destruct (Rlt_dec 0 (1 - (2 - (4 - 1) * 1))) as [_|N]; [|lra]. cbn [andb].
    cbn [merge_loop rsubtract combine map fst snd rargmin rargmin_from].
    destruct (Rlt_dec (1 - (2 - (4 - 1) * 1)) (2 - 1)) as [N|_]; [lra|].
    unfold get_column_density. rewrite !Rabs_pos_eq by lra.
    destruct (Rlt_dec (2 - 1) close) as [H|H]; destruct (Rlt_dec close 1) as [G|G]; try (exfalso; destruct C as [-> | ->]; lra).
    - cbn [length Nat.sub Nat.eqb update firstn skipn app np_delete nth Nat.ltb Nat.leb get_b_params f_widths map]. rewrite !Rabs_pos_eq by lra. repeat f_equal; lra.
    - cbn [get_b_params f_widths map]. rewrite !Rabs_pos_eq by lra. repeat f_equal; lra. }
  assert (B : forall close, close = 0 \/ close = 1.5 -> helper 1 1 (fun _ => 1) sample_fit true close [0; 0; 0; 0] = Some ([28], [4])).
  { intros close C. unfold helper, sample_fit. cbn [nth]. destruct (Rlt_dec 1 0) as [N|_]; [lra|]. cbn [length].
    unfold systems_start, sort_components. cbn [map f_widths f_amps f_means combine fold_right insert_at fst snd c_mean c_width c_amp].
    unfold merge. cbn [length Nat.sub update firstn skipn app rsubtract combine map fst snd forallb]. unfold rltb.
    replace (INR 4) with 4 by (cbn; ring). destruct (Rlt_dec 0 (0 - (0 - (4 - 1) * 1))) as [_|N]; [|lra]. cbn [andb].
    cbn [merge_loop rsubtract combine map fst snd rargmin rargmin_from].
    destruct (Rlt_dec (0 - (0 - (4 - 1) * 1)) close) as [N|_]; [exfalso; destruct C as [-> | ->]; lra|].
    unfold get_column_density. cbn [get_b_params f_widths map]. rewrite !Rabs_pos_eq by lra. repeat f_equal; lra. }
  split; rewrite gives_spec by (exact S || lia); cbn [map].
  - rewrite (A 0 ltac:(auto) [2; 0; 0; 0] ltac:(auto)), (A 0 ltac:(auto) [3; 0; 0; 0] ltac:(auto)), B by auto. cbn [all_of map concat fst snd app].
    destruct (Rlt_dec 0 1); [reflexivity|lra].
  - rewrite (A 1.5 ltac:(auto) [2; 0; 0; 0] ltac:(auto)), (A 1.5 ltac:(auto) [3; 0; 0; 0] ltac:(auto)), B by auto. cbn [all_of map concat fst snd app].
    destruct (Rlt_dec 1.5 1); [lra|reflexivity].
Qed.

Example C124_blank_case : exists fit, fits 1 (fun _ _ => 1) (fun _ => None) (fun _ _ => None) fit.
Proof.
  exists (fun tau => match do_fit 1 (fun _ _ => 1) (fun _ => None) (fun _ => None) (length tau) 0.0001 0.95 4 tau with Done cs => Some cs | _ => None end).
  intros tau. destruct (do_fit _ _ _ _ _ _ _ _ tau); auto.
Qed.

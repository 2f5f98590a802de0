(** C26, C56: column density statistics. *)
From Coq Require Import ZArith List Reals Lra Lia.
From Verif Require Import AbsorptionSpec FluxSpec CddfModel CddfSpec CddfProofs.
Import ListNotations.
Local Open Scope R_scope.

(** C26: f in bin i, times the bin width and the total path, is the number of absorbers falling into bin i;
    every absorber between the first and the last edge falls into exactly one bin, and the sum over bins is
    their number.  The absorbers are whole sightlines, or groups of pixels cut from each sightline. *)
Theorem C26_counts : forall minN maxN dlogN dist discarded line close dvbin rho,
  0 < dlogN -> minN < maxN -> 0 < dist -> rho <> [] ->
  exists a n center f,
    absorbers_of line (close / dvbin) rho a /\
    minN + INR n * dlogN < maxN <= minN + INR (S n) * dlogN /\
    column_density_function minN maxN dlogN dist discarded line close dvbin rho = (center, f) /\
    length center = n /\ length f = n /\
    (forall i, (i < n)%nat ->
       nth i center 0 = (bin_edge minN dlogN i + bin_edge minN dlogN (S i)) / 2 /\
       exists m, number (falls_into minN dlogN n i) a m /\
         nth i f 0 * (bin_edge minN dlogN (S i) - bin_edge minN dlogN i) * (dist * INR (length rho + discarded)) = INR m) /\
    (forall x, (exists i, (i < n)%nat /\ falls_into minN dlogN n i x) <->
               (0 < n)%nat /\ bin_edge minN dlogN 0 <= x <= bin_edge minN dlogN n) /\
    (forall x i j, (i < n)%nat -> (j < n)%nat -> falls_into minN dlogN n i x -> falls_into minN dlogN n j x -> i = j) /\
    (exists m, number (fun x => (0 < n)%nat /\ bin_edge minN dlogN 0 <= x <= bin_edge minN dlogN n) a m /\
      rsum (map (fun i => nth i f 0 * (bin_edge minN dlogN (S i) - bin_edge minN dlogN i)) (seq 0 n)) * (dist * INR (length rho + discarded)) = INR m).
Proof. exact C26_counts_aux. Qed.
Print Assumptions C26_counts.

(** The table stops before maxN: there are always column densities between the requested limits that no
    bin counts. *)
Theorem C26_top_refuted : forall minN maxN dlogN dist discarded dvbin close, 0 < dlogN -> minN < maxN ->
  exists x, Rpower 10 minN < x < Rpower 10 maxN /\
    forall i, nth i (snd (column_density_function minN maxN dlogN dist discarded true close dvbin [[x]])) 0 = 0.
Proof. exact C26_top_exists_aux. Qed.
Print Assumptions C26_top_refuted.

(** C56: the line density is the number of sightlines strictly between the thresholds, divided by the
    number of sightlines examined (kept and discarded) and by the path length of one. *)
Theorem C56_line_density : forall dist discarded lo hi rho, 0 < dist -> rho <> [] ->
  exists m, number (fun x => lo < x < hi) (map rsum rho) m /\
    line_density dist discarded lo hi rho = Some (INR m / (INR (length rho + discarded) * dist)).
Proof. exact C56_line_density_aux. Qed.
Print Assumptions C56_line_density.

Theorem C56_additive : forall mass len red rho_crit dist discarded lo mid hi rho, 0 < dist -> len <> 0 -> 1 + red <> 0 -> rho_crit <> 0 ->
  lo < mid < hi -> rho <> [] -> (forall row, In row rho -> rsum row <> mid) ->
  (exists a b c, line_density dist discarded lo hi rho = Some c /\ line_density dist discarded lo mid rho = Some a /\
     line_density dist discarded mid hi rho = Some b /\ c = a + b) /\
  (exists a b c, omega_abs mass len red rho_crit discarded lo hi rho = Some c /\ omega_abs mass len red rho_crit discarded lo mid rho = Some a /\
     omega_abs mass len red rho_crit discarded mid hi rho = Some b /\ c = a + b).
Proof. exact C56_additive_aux. Qed.
Print Assumptions C56_additive.

Theorem C56_density : forall mass len red discarded lo hi rho, len <> 0 -> 1 + red <> 0 -> rho <> [] ->
  rho_abs mass len red discarded lo (Some hi) rho =
  Some (mass * (rsum (filter (fun x => if Rlt_dec lo x then if Rlt_dec x hi then true else false else false) (map rsum rho)) /
               INR (length rho + discarded)) / (1 + red) ^ 2 / len).
Proof. exact C56_density_aux. Qed.
Print Assumptions C56_density.

(** rho_DLA never returns for a positive threshold: it compares column densities with None. *)
Theorem C56_rho_DLA_refuted : forall mass len red conv discarded thresh rho, 0 < thresh -> rho <> [] ->
  rho_DLA mass len red conv discarded thresh rho = None.
Proof. exact C56_rho_DLA_aux. Qed.
Print Assumptions C56_rho_DLA_refuted.

(** Without a threshold it is the mass in all of the gas, over the volume of the sightlines kept and discarded. *)
Theorem C56_rho_DLA : forall mass len red conv discarded thresh rho, len <> 0 -> 1 + red <> 0 -> thresh <= 0 -> rho <> [] ->
  rho_DLA mass len red conv discarded thresh rho =
  Some (mass * (rsum (map rsum rho) / INR (length rho + discarded)) / (1 + red) ^ 2 / len / conv).
Proof. exact C56_rho_DLA_all_aux. Qed.
Print Assumptions C56_rho_DLA.

(** Groups of two pixels of a row of five. *)
Example C26_groups_example : exists a, absorbers_of false 2 [[1; 2; 3; 4; 5]] a /\ a = [3; 7].
Proof.
  exists [3; 7]. split; [|reflexivity]. exists 2%nat, [[[1; 2]; [3; 4]]]. split; [lia|]. split.
  { right. cbn [INR]. rewrite Rabs_pos_eq by lra. lra. }
  split.
  - constructor; [|constructor]. exists [5]. split; [reflexivity|]. split; [repeat constructor|cbn; lia].
  - cbn [concat app map rsum fold_right]. f_equal; [lra|f_equal; lra].
Qed.

(** Two of three sightlines in range, one discarded earlier. *)
Example C56_example : line_density 2 1 1 10 [[1; 1]; [20]; [3; 4]] = Some (2 / (4 * 2)).
Proof.
  destruct (C56_line_density 2 1 1 10 [[1; 1]; [20]; [3; 4]] ltac:(lra) ltac:(discriminate)) as (m & Hm & E). rewrite E.
  assert (m = 2)%nat; [|subst m; cbn; f_equal; lra].
  cbn [map rsum fold_right] in Hm.
  inversion Hm as [|? ? ? ? H1|]; subst; [|lra]. inversion H1 as [|? ? ? C|? ? ? ? H2]; subst; [lra|].
  inversion H2 as [|? ? ? ? H3|]; subst; [|lra]. inversion H3. reflexivity.
Qed.

Example C56_additive_example : (1 < 5 < 10) /\ forall row, In row [[1; 1]; [20]; [3; 4]] -> rsum row <> 5.
Proof. split; [lra|]. intros row H. cbn in H. destruct H as [<-|[<-|[<-|[]]]]; cbn; lra. Qed.

(** Plots of single sightlines: the theorems of C108 and C109. *)
From Coq Require Import ZArith List Reals Lra Lia.
From Flocq Require Import Core.Raux.
From Verif Require Import PlotModel PlotSpec PlotProofs PlotProofs2.
Import ListNotations.
Local Open Scope R_scope.

(** Every pixel is drawn once, at its displacement from the first of the largest pixels, wrapped periodically, plus a fixed number of
    pixels for the offset. *)
Theorem C108_spectrum : forall dvbin tau flux offset, tau <> [] ->
  exists peak points, plot_spectrum dvbin tau flux offset = Some (peak, points) /\ first_largest tau peak /\ length points = length tau /\
    forall j, (j < length tau)%nat -> exists d, displaced (Z.of_nat (length tau)) (Z.of_nat j) (Z.of_nat peak) (Ztrunc (offset * dvbin)) d /\
      (- Z.of_nat (length tau / 2) <= d < Z.of_nat (length tau) - Z.of_nat (length tau / 2))%Z /\
      nth (Z.to_nat (d + Z.of_nat (length tau / 2))) points (0, 0) =
        (IZR d * dvbin, if flux then exp (- nth j tau 0) else nth j tau 0).
Proof. exact C108_spectrum_aux. Qed.
Print Assumptions C108_spectrum.

(** Without an offset the largest optical depth is drawn at velocity zero. *)
Theorem C108_centre : forall dvbin tau flux, tau <> [] ->
  exists peak points, plot_spectrum dvbin tau flux 0 = Some (peak, points) /\ first_largest tau peak /\
    nth (length tau / 2) points (0, 0) = (0, if flux then exp (- nth peak tau 0) else nth peak tau 0).
Proof. exact C108_centre_aux. Qed.
Print Assumptions C108_centre.

(** The offset is not in km/s: below 1/dvbin it does nothing, however many pixels it is. *)
Theorem C108_offset_refuted : forall dvbin tau flux offset, Rabs (offset * dvbin) < 1 ->
  plot_spectrum dvbin tau flux offset = plot_spectrum dvbin tau flux 0.
Proof. exact C108_offset_aux. Qed.
Print Assumptions C108_offset_refuted.

(** The density: every pixel once, at its displacement from the first of the largest (less half a pixel if their number is odd); the
    limit returned exceeds the most distant pixel above the threshold by 50. *)
Theorem C108_density : forall dvbin velfac den thresh, den <> [] -> 0 <= dvbin / velfac ->
  let n := length den in let phys := dvbin / velfac in
  let x := fun d : Z => (IZR d + (INR (n / 2) - INR n / 2)) * phys in
  exists peak points dxlim, plot_density dvbin velfac den thresh = Some (points, dxlim) /\ first_largest den peak /\ length points = n /\
    (forall j, (j < n)%nat -> exists d, displaced (Z.of_nat n) (Z.of_nat j) (Z.of_nat peak) 0 d /\
       (- Z.of_nat (n / 2) <= d < Z.of_nat n - Z.of_nat (n / 2))%Z /\
       nth (Z.to_nat (d + Z.of_nat (n / 2))) points (0, 0) = (x d, nth j den 0 + / 10 ^ 30) /\
       (thresh < nth j den 0 -> Rabs (x d) + 50 <= dxlim)) /\
    ((exists j, (j < n)%nat /\ thresh < nth j den 0) -> exists j d, (j < n)%nat /\ thresh < nth j den 0 /\
       displaced (Z.of_nat n) (Z.of_nat j) (Z.of_nat peak) 0 d /\ (- Z.of_nat (n / 2) <= d < Z.of_nat n - Z.of_nat (n / 2))%Z /\ dxlim = Rabs (x d) + 50).
Proof. exact C108_density_aux. Qed.
Print Assumptions C108_density.

(** The plot of densities against velocities raises exactly if two or more pixels are above the threshold, ... *)
Theorem C109_raises : forall dvbin nbins den num axis thresh voff xscale v, den <> [] -> (0 < nbins)%nat ->
  (fst (plot_den_to_tau dvbin nbins den num axis thresh voff xscale v) = Error <-> (2 <= bright thresh den)%nat).
Proof. exact C109_raises_aux. Qed.
Print Assumptions C109_raises.

(** ... draws nothing if there is none, and one line from 0 to voff if there is one. *)
Theorem C109_drawn : forall dvbin nbins den num axis thresh voff xscale v, den <> [] -> (0 < nbins)%nat -> velocity_of v num den -> (1 <= axis <= 3)%nat -> xscale <> 0 ->
  (bright thresh den = 0%nat -> fst (plot_den_to_tau dvbin nbins den num axis thresh voff xscale v) = Lines []) /\
  (bright thresh den = 1%nat -> exists l, fst (plot_den_to_tau dvbin nbins den num axis thresh voff xscale v) = Lines [l] /\ length l = 10%nat /\
     forall i, (i < 10)%nat -> nth i l (0, 0) = (INR i / 9 * voff, INR i / 9)).
Proof. exact C109_drawn_aux. Qed.
Print Assumptions C109_drawn.

(** Whether or not it raises, the cached velocity along that sightline is displaced so that the densest pixel has voff; nothing else changes. *)
Theorem C109_cache : forall dvbin nbins den num axis thresh voff xscale v, den <> [] -> velocity_of v num den -> (1 <= axis <= 3)%nat ->
  exists imax, first_largest den imax /\ forall num' i ax, (i < length (nth num' v []))%nat ->
    speed (snd (plot_den_to_tau dvbin nbins den num axis thresh voff xscale v)) num' i ax =
    if (Nat.eqb num' num && Nat.eqb ax (axis - 1))%bool then speed v num i (axis - 1) - speed v num imax (axis - 1) + voff else speed v num' i ax.
Proof. exact C109_cache_aux. Qed.
Print Assumptions C109_cache.

(** After any sequence of such plots only the last plot of a sightline counts for its velocities, and differences between its pixels are kept. *)
Theorem C109_history : forall dvbin nbins (den : nat -> list R) (axis : nat -> nat) v cs,
  (forall c, In c cs -> c_den c = den (c_num c) /\ c_axis c = axis (c_num c) /\ den (c_num c) <> [] /\ velocity_of v (c_num c) (den (c_num c)) /\ (1 <= axis (c_num c) <= 3)%nat) ->
  forall num,
    ((forall c, In c cs -> c_num c <> num) -> forall i ax, (i < length (nth num v []))%nat -> speed (plots dvbin nbins cs v) num i ax = speed v num i ax) /\
    (forall before c after, cs = before ++ c :: after -> c_num c = num -> (forall c', In c' after -> c_num c' <> num) ->
       exists imax, first_largest (den num) imax /\ forall i ax, (i < length (nth num v []))%nat ->
         speed (plots dvbin nbins cs v) num i ax = if Nat.eqb ax (axis num - 1) then speed v num i ax - speed v num imax ax + c_voff c else speed v num i ax).
Proof. exact C109_history_aux. Qed.
Print Assumptions C109_history.

(** The plot of one object changes what get_velocity returns afterwards. *)
Theorem C109_velocity_refuted : exists dvbin nbins den num axis thresh voff xscale v,
  velocity_of v num den /\ fst (plot_den_to_tau dvbin nbins den num axis thresh voff xscale v) <> Error /\
  speed v num 0 0 = 30 /\ speed (snd (plot_den_to_tau dvbin nbins den num axis thresh voff xscale v)) num 0 0 = 0.
Proof.
  exists 1, 2%nat, [3; 1], 0%nat, 1%nat, 2, 0, 1, [[[30; 5; 6]; [40; 7; 8]]].
  assert (V : velocity_of [[[30; 5; 6]; [40; 7; 8]]] 0 [3; 1]).
  { split; [cbn; lia|]. split; [reflexivity|]. cbn. intros p [<- |[<- |[]]]; reflexivity. }
  split; [exact V|]. split.
  - intros E. apply (proj1 (C109_raises 1 2%nat [3; 1] 0%nat 1%nat 2 0 1 _ ltac:(discriminate) ltac:(lia))) in E. unfold bright in E. cbn [filter] in E.
    destruct (Rlt_dec 2 3); [|lra]. destruct (Rlt_dec 2 1); [lra|]. cbn in E. lia.
  - split; [reflexivity|].
    destruct (C109_cache 1 2%nat [3; 1] 0%nat 1%nat 2 0 1 _ ltac:(discriminate) V ltac:(lia)) as (p & (F1 & F2 & _) & C).
    rewrite (C 0%nat 0%nat 0%nat) by (cbn; lia). cbn [Nat.eqb Nat.sub andb length] in *.
    assert (p = 0)%nat as ->. { destruct p as [|[|p]]; [reflexivity| |lia]. specialize (F2 0%nat ltac:(lia)). cbn in F2. lra. }
    unfold speed. cbn. lra.
Qed.
Print Assumptions C109_velocity_refuted.

(** ** The hypotheses are met *)
(** Five pixels, the largest first: it is drawn at 0; the next at 2 pixels' velocity. *)
Example C108_spectrum_example : exists points, plot_spectrum 10 [7; 1; 2; 3; 4] false 0 = Some (0%nat, points) /\ length points = 5%nat /\ nth 2 points (0, 0) = (0, 7).
Proof.
  destruct (C108_spectrum 10 [7; 1; 2; 3; 4] false 0 ltac:(discriminate)) as (p & pts & E & (F1 & F2 & F3) & L & _).
  destruct (C108_centre 10 [7; 1; 2; 3; 4] false ltac:(discriminate)) as (p' & pts' & E' & _ & C). rewrite E in E'. injection E' as <- <-.
  assert (p = 0)%nat as ->.
  { destruct p as [|p]; [reflexivity|]. exfalso. specialize (F3 0%nat ltac:(lia)). cbn [length] in F1.
    destruct p as [|[|[|[|p]]]]; cbn in F3; try lra. lia. }
  exists pts. split; [exact E|]. split; [exact L|]. exact C.
Qed.

(** With pixels of 0.1 km/s an offset of 9 km/s, 90 pixels, does nothing. *)
Example C108_offset_example : Rabs (9 * (1 / 10)) < 1.
Proof. rewrite Rabs_pos_eq; lra. Qed.

Example C108_density_example : [3; 1; 2] <> [] /\ 0 <= 10 / 2 /\ (exists j, (j < 3)%nat /\ 1 < nth j [3; 1; 2] 0).
Proof. split; [discriminate|]. split; [lra|]. exists 2%nat. cbn. split; [lia|lra]. Qed.

Example C109_bright_example : bright 1 [3; 1; 2] = 2%nat /\ bright 2 [3; 1; 2] = 1%nat /\ bright 5 [3; 1; 2] = 0%nat.
Proof. unfold bright. cbn [filter]. repeat (match goal with |- context [Rlt_dec ?a ?b] => destruct (Rlt_dec a b); try lra end). auto. Qed.

(** Two sightlines plotted in turn, the first of them twice. *)
Example C109_history_example : let v := [[[30; 5; 6]; [40; 7; 8]]; [[1; 2; 3]; [4; 5; 6]]] in
  let den := fun n => if Nat.eqb n 0 then [3; 1] else [1; 2] in let axis := fun n => S n in
  let cs := [mkCall 0 1 [3; 1] 0 10; mkCall 1 2 [1; 2] 5 0; mkCall 0 1 [3; 1] 2 20] in
  forall c, In c cs -> c_den c = den (c_num c) /\ c_axis c = axis (c_num c) /\ den (c_num c) <> [] /\ velocity_of v (c_num c) (den (c_num c)) /\ (1 <= axis (c_num c) <= 3)%nat.
Proof.
  intros v den axis cs c Hc. unfold cs in Hc. cbn [In] in Hc. destruct Hc as [<- |[<- |[<- |[]]]]; cbn [c_den c_num c_axis]; unfold den, axis; cbn [Nat.eqb]; (split; [reflexivity|]); (split; [reflexivity|]); (split; [discriminate|]); (split; [|lia]);
    (split; [cbn; lia|]); (split; [reflexivity|]); intros p [<- |[<- |[]]]; reflexivity.
Qed.

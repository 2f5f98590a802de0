(** C112, C113, C114, C115: statistics of the host halos and mean temperatures. *)
From Coq Require Import ZArith List Bool Reals Lra Lia Arith.
From Verif Require MetalProofs2.
From Verif Require Import FluxSpec HostsModel HostsSpec HostsProofs HostsProofs2.
Import ListNotations.
Local Open Scope R_scope.

(** ** C112: the histogram of the virial velocities of the hosts *)

Theorem C112_counts : forall (vel : Z -> R) (halos : list Z) (dm lo hi : R), 0 < dm ->
  (forall h, In h halos -> hosted h -> 0 <= vel h) -> slowest vel halos lo -> fastest vel halos hi -> lo + 1 / 10 < hi ->
  let a := lg (lo + 1 / 10) in
  exists n t,
  a + INR n * dm < lg hi <= a + INR (S n) * dm /\
  number (fun h => hosted h /\ lo + 1 / 10 <= vel h /\ lg (vel h) <= a + INR n * dm) halos t /\
  (n = 0%nat -> mass_hist vel halos dm = Some ([], [])) /\
  (n <> 0%nat -> t = 0%nat -> mass_hist vel halos dm = None) /\
  (n <> 0%nat -> t <> 0%nat -> exists mbin pdf,
     mass_hist vel halos dm = Some (mbin, pdf) /\ length mbin = n /\ length pdf = n /\
     (forall i, (i < n)%nat ->
        nth i mbin 0 = (Rpower 10 (a + INR i * dm) + Rpower 10 (a + INR (S i) * dm)) / 2 /\
        exists m, number (fun h => hosted h /\ 0 < vel h /\ within (spaced a dm) n i (lg (vel h))) halos m /\
          nth i pdf 0 = INR m / dm / INR t) /\
     total (map (fun x => x * dm) pdf) = 1).
Proof. exact C112_counts_aux. Qed.
Print Assumptions C112_counts.

(** The slowest hosts and the fastest are in no bin: not every host is counted. *)
Theorem C112_every_host_refuted : forall (vel : Z -> R) (halos : list Z) (dm lo hi : R), 0 < dm ->
  (forall h, In h halos -> hosted h -> 0 <= vel h) -> slowest vel halos lo -> fastest vel halos hi -> lo + 1 / 10 < hi ->
  let a := lg (lo + 1 / 10) in
  forall n, a + INR n * dm < lg hi ->
  (forall i v, (i < n)%nat -> 0 < v -> v < lo + 1 / 10 \/ v = hi -> ~ within (spaced a dm) n i (lg v)) /\
  exists t mid all,
    number (fun h => hosted h /\ lo + 1 / 10 <= vel h /\ lg (vel h) <= a + INR n * dm) halos t /\
    number (fun h => hosted h /\ lo + 1 / 10 <= vel h) halos mid /\
    number hosted halos all /\ (t < mid)%nat /\ (mid < all)%nat.
Proof. exact C112_ends_aux. Qed.
Print Assumptions C112_every_host_refuted.

Theorem C112_close : forall vel halos dm lo hi, 0 < dm -> slowest vel halos lo -> fastest vel halos hi -> 0 < hi -> hi <= lo + 1 / 10 ->
  mass_hist vel halos dm = Some ([], []).
Proof. exact C112_close_aux. Qed.
Print Assumptions C112_close.

Theorem C112_field : forall vel halos dm, (forall h, In h halos -> ~ hosted h) -> mass_hist vel halos dm = None.
Proof. exact C112_none_aux. Qed.
Print Assumptions C112_field.

Definition speed (h : Z) : R := if (h =? 0)%Z then 9 / 10 else if (h =? 1)%Z then 20 else 200.
Example C112_case : (forall h, In h [0; -1; 1; 1; 2]%Z -> hosted h -> 0 <= speed h) /\
  slowest speed [0; -1; 1; 1; 2]%Z (9 / 10) /\ fastest speed [0; -1; 1; 1; 2]%Z 200 /\ 9 / 10 + 1 / 10 < 200 /\
  number (fun h => hosted h /\ 9 / 10 + 1 / 10 <= speed h /\ lg (speed h) <= lg (9 / 10 + 1 / 10) + INR 2 * 1) [0; -1; 1; 1; 2]%Z 2.
Proof.
  assert (L : forall h, In h [0; -1; 1; 1; 2]%Z -> hosted h -> h = 0%Z /\ speed h = 9 / 10 \/ h = 1%Z /\ speed h = 20 \/ h = 2%Z /\ speed h = 200).
  { intros h [<-|[<-|[<-|[<-|[<-|[]]]]]] H; unfold speed; cbn; auto. exfalso. apply H. reflexivity. }
  assert (L1 : lg (9 / 10 + 1 / 10) = 0) by (unfold lg; replace (9 / 10 + 1 / 10) with 1 by field; rewrite ln_1; unfold Rdiv; ring).
  pose proof MetalProofs2.ln10 as P.
  assert (L2 : lg 100 = 2). { unfold lg. replace 100 with (10 * 10) by lra. rewrite ln_mult by lra. field. lra. }
  assert (L3 : lg 20 <= 2) by (rewrite <- L2; apply MetalProofs2.log_le; lra).
  assert (L4 : 2 < lg 200) by (rewrite <- L2; apply MetalProofs2.log_mono; lra).
  split; [|split; [|split; [|split]]].
  - intros h I H. destruct (L h I H) as [[_ ->]|[[_ ->]|[_ ->]]]; lra.
  - split; [exists 0%Z; split; [cbn; auto|split; [discriminate|reflexivity]]|]. intros h I H. destruct (L h I H) as [[_ ->]|[[_ ->]|[_ ->]]]; lra.
  - split; [exists 2%Z; split; [cbn; auto 6|split; [discriminate|reflexivity]]|]. intros h I H. destruct (L h I H) as [[_ ->]|[[_ ->]|[_ ->]]]; lra.
  - lra.
  - rewrite L1. cbn [INR]. constructor 3; [unfold speed; cbn; lra|]. constructor 3; [unfold hosted; intros [C _]; apply C; reflexivity|].
    constructor 2; [unfold speed, hosted; cbn; split; [discriminate|lra]|].
    constructor 2; [unfold speed, hosted; cbn; split; [discriminate|lra]|].
    constructor 3; [unfold speed, hosted; cbn; intros [_ [_ C]]; lra|]. constructor.
Qed.

(** ** C113: a distribution broken down by the hosts' virial velocities *)

Theorem C113_fractions : forall vel log dv absorbers ranges lo hi, 0 < dv -> (forall x h, In (x, h) absorbers -> log = true -> 0 < x) ->
  lowest absorbers lo -> highest absorbers hi -> lo < hi -> (length ranges <= 3)%nat ->
  let a := scale log lo in
  exists n vbin rows,
    a + INR n * dv < scale log hi <= a + INR (S n) * dv /\
    plot_breakdown vel log dv absorbers ranges = Some (vbin, rows) /\ length vbin = n /\ length rows = length ranges /\
    (forall i, (i < n)%nat -> nth i vbin 0 = (unscale log (spaced a dv i) + unscale log (spaced a dv (S i))) / 2) /\
    forall k, (k < length ranges)%nat -> length (nth k rows []) = n /\
      forall i, (i < n)%nat -> exists m mk,
        number (fun p => within (spaced a dv) n i (scale log (fst p))) absorbers m /\
        number (fun p => within (spaced a dv) n i (scale log (fst p)) /\ (0 < snd p)%Z /\ between vel (nth k ranges (0, 0)) (snd p)) absorbers mk /\
        nth i (nth k rows []) 0 = (if Nat.eqb m 0 then 0 else INR mk / INR m).
Proof. exact C113_fractions_aux. Qed.
Print Assumptions C113_fractions.

Theorem C113_bounds : forall vel log dv absorbers ranges lo hi vbin rows, 0 < dv -> (forall x h, In (x, h) absorbers -> log = true -> 0 < x) ->
  lowest absorbers lo -> highest absorbers hi -> lo < hi -> (length ranges <= 3)%nat ->
  plot_breakdown vel log dv absorbers ranges = Some (vbin, rows) ->
  (forall k i, (k < length ranges)%nat -> (i < length vbin)%nat -> 0 <= nth i (nth k rows []) 0 <= 1) /\
  (disjoint ranges -> forall i, (i < length vbin)%nat -> total (map (fun row => nth i row 0) rows) <= 1).
Proof. exact C113_sum_aux. Qed.
Print Assumptions C113_bounds.

(** Absorbers hosted by halo number 0, the most massive, are in no curve, whatever its velocity and the ranges. *)
Theorem C113_first_halo_refuted : forall vel log dv absorbers ranges lo hi vbin rows, 0 < dv ->
  (forall x h, In (x, h) absorbers -> log = true -> 0 < x) -> lowest absorbers lo -> highest absorbers hi -> lo < hi -> (length ranges <= 3)%nat ->
  plot_breakdown vel log dv absorbers ranges = Some (vbin, rows) ->
  (forall x h, In (x, h) absorbers -> (h <= 0)%Z) ->
  forall k i, (k < length ranges)%nat -> (i < length vbin)%nat -> nth i (nth k rows []) 0 = 0.
Proof. exact C113_first_aux. Qed.
Print Assumptions C113_first_halo_refuted.

(** The largest value is in no bin. *)
Theorem C113_largest_refuted : forall (a dv b : R) n i, 0 < dv -> a + INR n * dv < b -> (i < n)%nat -> ~ within (spaced a dv) n i b.
Proof. exact C113_largest_aux. Qed.
Print Assumptions C113_largest_refuted.

Theorem C113_same : forall vel log dv absorbers ranges x, absorbers <> [] -> (forall y h, In (y, h) absorbers -> y = x) -> (log = true -> 0 < x) ->
  0 < dv -> (length ranges <= 3)%nat ->
  plot_breakdown vel log dv absorbers ranges = Some ([], map (fun _ => []) ranges).
Proof. exact C113_same_aux. Qed.
Print Assumptions C113_same.

Theorem C113_errors : forall vel log dv absorbers ranges,
  absorbers = [] \/ (log = true /\ exists x h, In (x, h) absorbers /\ x <= 0) \/ (3 < length ranges)%nat ->
  plot_breakdown vel log dv absorbers ranges = None.
Proof. exact C113_errors_aux. Qed.
Print Assumptions C113_errors.

Example C113_case : exists vbin rows,
  plot_breakdown speed false 1 [(0, 1%Z); (1 / 2, 2%Z); (1 / 4, 0%Z); (2, (-1)%Z)] [(10, 100); (100, 300)] = Some (vbin, rows) /\
  length vbin = 1%nat /\ nth 0 (nth 0 rows []) 0 = 1 / 3 /\ nth 0 (nth 1 rows []) 0 = 1 / 3 /\ disjoint [(10, 100); (100, 300)].
Proof.
  set (abs := [(0, 1%Z); (1 / 2, 2%Z); (1 / 4, 0%Z); (2, (-1)%Z)]).
  assert (LO : lowest abs 0).
  { split; [exists 1%Z; cbn; auto|]. intros x h [E|[E|[E|[E|[]]]]]; injection E as <- <-; lra. }
  assert (HI : highest abs 2).
  { split; [exists (-1)%Z; cbn; auto|]. intros x h [E|[E|[E|[E|[]]]]]; injection E as <- <-; lra. }
  destruct (C113_fractions speed false 1 abs [(10, 100); (100, 300)] 0 2 ltac:(lra) ltac:(intros; discriminate) LO HI ltac:(lra) ltac:(cbn; lia))
    as [n [vbin [rows [B [E [LV [_ [_ F]]]]]]]]. cbn [scale] in B.
  assert (N1 : n = 1%nat).
  { destruct n as [|[|n]]; [cbn in B; lra|reflexivity|]. rewrite !S_INR in B. assert (0 <= INR n) by apply pos_INR. lra. }
  rewrite N1 in *. exists vbin, rows. split; [exact E|]. split; [exact LV|].
  assert (W1 : forall x, 0 <= x <= 1 -> within (spaced 0 1) 1 0 (scale false x)).
  { intros x X. unfold within, spaced, scale. cbn [INR]. split; [lra|]. destruct X as [X1 [X2|X2]]; [left; lra|right; split; [reflexivity|lra]]. }
  assert (W2 : ~ within (spaced 0 1) 1 0 (scale false 2)).
  { unfold within, spaced, scale. cbn [INR]. intros [_ [C|[_ C]]]; lra. }
  assert (M3 : number (fun p => within (spaced 0 1) 1 0 (scale false (fst p))) abs 3).
  { unfold abs. repeat (apply number_yes; [apply W1; cbn [fst]; lra|]). apply number_no; [exact W2|constructor]. }
  assert (SP : speed 1 = 20 /\ speed 2 = 200) by (split; reflexivity).
  destruct SP as [S1 S2]. split; [|split].
  - destruct (F 0%nat ltac:(cbn; lia)) as [_ FI]. destruct (FI 0%nat ltac:(lia)) as [m [mk [M [MK ->]]]]. cbn [nth] in MK. change (scale false 0) with 0 in M, MK.
    rewrite (number_det _ _ _ M _ M3).
    assert (M1 : number (fun p => within (spaced 0 1) 1 0 (scale false (fst p)) /\ (0 < snd p)%Z /\ between speed (10, 100) (snd p)) abs 1).
    { unfold abs, between. apply number_yes; [split; [apply W1; cbn [fst]; lra|]; cbn [fst snd]; rewrite S1; split; [lia|lra]|].
      apply number_no; [cbn [fst snd]; rewrite S2; intros [_ [_ C]]; lra|]. apply number_no; [cbn [fst snd]; intros [_ [C _]]; lia|].
      apply number_no; [cbn [fst snd]; intros [_ [C _]]; lia|constructor]. }
    rewrite (number_det _ _ _ MK _ M1). cbn. lra.
  - destruct (F 1%nat ltac:(cbn; lia)) as [_ FI]. destruct (FI 0%nat ltac:(lia)) as [m [mk [M [MK ->]]]]. cbn [nth] in MK. change (scale false 0) with 0 in M, MK.
    rewrite (number_det _ _ _ M _ M3).
    assert (M1 : number (fun p => within (spaced 0 1) 1 0 (scale false (fst p)) /\ (0 < snd p)%Z /\ between speed (100, 300) (snd p)) abs 1).
    { unfold abs, between. apply number_no; [cbn [fst snd]; rewrite S1; intros [_ [_ C]]; lra|].
      apply number_yes; [split; [apply W1; cbn [fst]; lra|]; cbn [fst snd]; rewrite S2; split; [lia|lra]|].
      apply number_no; [cbn [fst snd]; intros [_ [C _]]; lia|]. apply number_no; [cbn [fst snd]; intros [_ [C _]]; lia|constructor]. }
    rewrite (number_det _ _ _ MK _ M1). cbn. lra.
  - intros i j v [I J] A B'. cbn [length] in J. destruct j as [|[|j]]; [lia| |lia]. destruct i as [|i]; [|lia]. cbn [nth fst snd] in A, B'. lra.
Qed.

(** ** C114: the stellar mass function *)

Theorem C114_counts : forall raw, (forall m, In m raw -> 0 <= m) -> exists sm gsmf, get_stellar_mass_function raw = (sm, gsmf) /\
  length sm = 49%nat /\ length gsmf = 49%nat /\
  forall i, (i < 49)%nat ->
    nth i sm 0 = (Rpower 10 (6 + INR i * (6 / 49)) + Rpower 10 (6 + INR (S i) * (6 / 49))) / 2 /\
    exists m, number (fun x => within (fun i => Rpower 10 (6 + INR i * (6 / 49))) 49 i (x * 10 ^ 10 / (7 / 10))) raw m /\
      nth i gsmf 0 * (6 / 49) * (25 / (7 / 10)) ^ 3 = INR m.
Proof. exact C114_counts_aux. Qed.
Print Assumptions C114_counts.

(** The function is the number density for no other volume of the box. *)
Theorem C114_volume : forall V,
  (forall raw i m, (forall x, In x raw -> 0 <= x) -> (i < 49)%nat ->
     number (fun x => within (fun i => Rpower 10 (6 + INR i * (6 / 49))) 49 i (x * 10 ^ 10 / (7 / 10))) raw m ->
     nth i (snd (get_stellar_mass_function raw)) 0 * (6 / 49) * V = INR m) <-> V = (25 / (7 / 10)) ^ 3.
Proof. exact C114_volume_aux. Qed.
Print Assumptions C114_volume.

(** ** C115: density weighted temperatures *)

Theorem C115_points : forall sightlines,
  drawn sightlines (plot_temp (map (map fst) sightlines) (map (map snd) sightlines)) /\
  forall pts, drawn sightlines pts -> pts = plot_temp (map (map fst) sightlines) (map (map snd) sightlines).
Proof.
  intros s. split; [exact (C115_points_aux s)|]. intros pts D. exact (drawn_det s pts D _ (C115_points_aux s)).
Qed.
Print Assumptions C115_points.

Theorem C115_mean : forall s p lo hi, picked s p -> p <> [] -> (forall t d, In (t, d) s -> / 10 ^ 6 <= d -> lo <= t <= hi) -> lo <= warmth p <= hi.
Proof. exact C115_mean_aux. Qed.
Print Assumptions C115_mean.

Example C115_case : drawn [[(10, / 10 ^ 7)]; [(100, 1); (400, 2); (10 ^ 9, 0)]; [(10 ^ 6, 1)]] [(3, 300)].
Proof.
  assert (S6 : / 10 ^ 6 <= 1) by lra. assert (S7 : / 10 ^ 7 < / 10 ^ 6) by lra. assert (S0 : 0 < / 10 ^ 6) by lra.
  apply drawn_empty; [apply picked_no; [exact S7|constructor]|].
  assert (W : weight [(100, 1); (400, 2)] = 3) by (unfold weight, total; cbn; lra).
  assert (T : warmth [(100, 1); (400, 2)] = 300) by (unfold warmth; rewrite W; unfold total; cbn; lra).
  rewrite <- W, <- T. apply drawn_point.
  - apply picked_yes; [exact S6|]. apply picked_yes; [lra|]. apply picked_no; [exact S0|constructor].
  - discriminate.
  - rewrite T. lra.
  - apply drawn_hot with (p := [(10 ^ 6, 1)]); [apply picked_yes; [exact S6|constructor]|discriminate| |constructor].
    unfold warmth, weight, total. cbn [map fold_right fst snd]. lra.
Qed.

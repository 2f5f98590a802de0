(** Properties C45 and C46: particle arrays and table lookups. *)
From Coq Require Import Reals List Bool ZArith Arith Lia Lra.
From Verif Require Import ParticleModel ParticleSpec ParticleProofs.
Import ListNotations.
Local Open Scope R_scope.

(** C45.  Reading the particles [ind] of a segment returns arrays whose [k]-th
    entries all belong to the [k]-th selected particle, returns nothing only if
    nothing is selected, and raises only for ionised hydrogen without optical
    depth. *)
Theorem C45_read : forall tb q s n ind,
  complete s n -> Forall (fun i => i < n)%nat ind ->
  b_lo (t_dens tb) <= b_hi (t_dens tb) -> b_lo (t_temp tb) <= b_hi (t_temp tb) ->
  match read_indexed tb q s ind with
  | Nothing => selects q s ind []
  | IndexError => r_hydrogen q = true /\ one_ion q /\ r_tau q = false
  | Read a => exists js, js <> [] /\ selects q s ind js /\ describe tb q (tag s js) a
  end.
Proof. exact C45_read_aux. Qed.
Print Assumptions C45_read.

(** Reading all segments at once gives the selected particles of every segment,
    segment after segment. *)
Theorem C45_all : forall tb q first rest,
  b_lo (t_dens tb) <= b_hi (t_dens tb) -> b_lo (t_temp tb) <= b_hi (t_temp tb) ->
  Forall (fun p => exists n, complete (fst p) n /\ Forall (fun i => i < n)%nat (snd p)) (first :: rest) ->
  match load_all_arrays q (read_indexed tb q (fst first) (snd first))
          (map (fun p => read_indexed tb q (fst p) (snd p)) rest) with
  | IndexError => r_hydrogen q = true /\ one_ion q /\ r_tau q = false
  | Nothing => Forall (fun p => selects q (fst p) (snd p) []) (first :: rest)
  | Read a => exists jss,
      Forall2 (fun p js => selects q (fst p) (snd p) js) (first :: rest) jss /\
      concat jss <> [] /\
      describe tb q (concat (map (fun pj => tag (fst (fst pj)) (snd pj))
        (combine (first :: rest) jss))) a
  end.
Proof. exact C45_all_aux. Qed.
Print Assumptions C45_all.

(** Densities are not negative, whatever the signs of the stored mass fractions. *)
Theorem C45_nonneg : forall tb q who a, describe tb q who a ->
  0 <= r_rscale q -> 0 < r_mass q ->
  (forall d t, 0 <= t_ion tb d t) ->
  (forall s j, In (s, j) who -> Forall (fun x => 0 <= x) (s_rho s) /\ Forall (fun x => 0 <= x) (s_hi s)) ->
  Forall (fun x => 0 <= x) (a_den a).
Proof. exact C45_nonneg_aux. Qed.
Print Assumptions C45_nonneg.

(** Remembering which particles are near sightlines never changes a result: in
    any history of reads the sightlines may change until they are final. *)
Theorem C45_cache : forall segs near ks,
  Forall (fun k => k_final k = true -> k_near k = near) ks ->
  run_calls segs [] ks =
  map (fun k => read_indexed (k_table k) (k_request k) (segs (k_segment k))
         (k_near k (s_pos (segs (k_segment k))) (s_hh (segs (k_segment k))))) ks.
Proof. exact C45_cache_aux. Qed.
Print Assumptions C45_cache.

(** Column densities of ionised hydrogen cannot be read: the temperatures were
    not loaded, so any second particle raises an IndexError. *)
Theorem C45_hii_refuted : forall tb q s n ind,
  complete s n -> Forall (fun i => i < n)%nat ind ->
  r_hydrogen q = true -> r_ion q <> 1%Z -> r_ion q <> (-1)%Z -> r_tau q = false ->
  (exists k j rho f, nth_error ind (S k) = Some j /\ has s j rho f /\ 0 < rho * r_rscale q * f) ->
  read_indexed tb q s ind = IndexError.
Proof. exact C45_hii_aux. Qed.
Print Assumptions C45_hii_refuted.

(** C46.  The ionisation table is evaluated once per particle, at its density
    and temperature moved into the limits of the table; values within the
    limits are not changed. *)
Theorem C46_table : forall tb den temp,
  b_lo (t_dens tb) <= b_hi (t_dens tb) -> b_lo (t_temp tb) <= b_hi (t_temp tb) ->
  length den = length temp ->
  length (get_elem_den tb den temp) = length den /\
  forall k d t, nth_error den k = Some d -> nth_error temp k = Some t ->
    exists d' t', moved_into (t_dens tb) d d' /\ moved_into (t_temp tb) t t' /\
      nth_error (get_elem_den tb den temp) k = Some (t_ion tb d' t').
Proof. exact C46_table_aux. Qed.
Print Assumptions C46_table.

(** ** The hypotheses are met *)

(** A segment of three particles: the first has no carbon (a negative stored
    fraction), the second a negative temperature, the third is hot and dense. *)
Definition seg3 : segment := Segment
  [(1,1,1); (2,2,2); (3,3,3)] [0.1; 0.2; 0.3] [(10,0,0); (20,0,0); (30,0,0)]
  [1; 2; 50] [1000; -5; 1000000000] [-0.5; 0.01; 0.02] [0.1; 0.2; 0.3].
Definition cloudy : table := Table (Bounds 10 1e8) (Bounds 0.01 10) (fun d t => d / 100).
Definition carbon4 : request := Request false 4 true 2 12.
Definition h2col : request := Request true 2 false 1 1.

Example seg3_complete : complete seg3 3 /\ Forall (fun i => i < 3)%nat [0; 1; 2]%nat.
Proof. split; [repeat split | repeat constructor]. Qed.

(** The carbon of the second and third particles is returned. *)
Example carbon_read : exists a, read_indexed cloudy carbon4 seg3 [0; 1; 2]%nat = Read a /\
  a_pos a = [(2,2,2); (3,3,3)] /\ a_temp a = [1; 1000000000] /\ a_vel a = [(20,0,0); (30,0,0)].
Proof.
  unfold read_indexed. cbn -[Rmult Rdiv Rlt_dec Rle_dec where_positive fix_temp fix_frac get_elem_den].
  unfold fix_temp, fix_frac.
  destruct (Rle_dec 1000 0); [lra|]. destruct (Rle_dec (-5) 0); [|lra].
  destruct (Rle_dec 1000000000 0); [lra|]. destruct (Rle_dec (-0.5) 0); [|lra].
  destruct (Rle_dec 0.01 0); [lra|]. destruct (Rle_dec 0.02 0); [lra|].
  cbn [where_positive].
  destruct (Rlt_dec 0 (1 * 2 * 0)); [lra|]. destruct (Rlt_dec 0 (2 * 2 * 0.01)); [|lra].
  destruct (Rlt_dec 0 (50 * 2 * 0.02)); [|lra].
  eexists. split; [reflexivity|]. split; [reflexivity|]. split; reflexivity.
Qed.

Example hii_case : exists k j rho f, nth_error [0; 1; 2]%nat (S k) = Some j /\
  has seg3 j rho f /\ 0 < rho * r_rscale h2col * f.
Proof.
  exists 0%nat, 1%nat, 2, 0.01. split; auto. split.
  - split; auto. exists 0.01. split; auto. symmetry. apply Rmax_left. lra.
  - cbn [r_rscale h2col]. lra.
Qed.

Example cloudy_limits : b_lo (t_dens cloudy) <= b_hi (t_dens cloudy) /\
  b_lo (t_temp cloudy) <= b_hi (t_temp cloudy).
Proof. cbn. lra. Qed.

(** The dense particle is looked up at the edge of the table. *)
Example cloudy_edge : exists x, nth_error (get_elem_den cloudy [2; 50] [1; 1000000000]) 1 = Some x /\ x = 10 / 100.
Proof.
  destruct (C46_table cloudy [2; 50] [1; 1000000000]) as [_ H]; try (cbn; lra); auto.
  destruct (H 1%nat 50 1000000000 eq_refl eq_refl) as (d' & t' & (_ & _ & _ & D) & _ & E).
  exists (d' / 100). split; [exact E|]. rewrite D; cbn [t_dens cloudy b_hi]; lra.
Qed.

(** A history in which the sightlines change once and then stay. *)
Example history_case : Forall (fun k => k_final k = true -> k_near k = (fun _ _ => [1%nat]))
  [Call false (fun _ _ => [0%nat]) cloudy carbon4 0; Call true (fun _ _ => [1%nat]) cloudy carbon4 0;
   Call true (fun _ _ => [1%nat]) cloudy carbon4 0].
Proof. repeat constructor; discriminate. Qed.

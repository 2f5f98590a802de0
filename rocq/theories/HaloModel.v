(** Model of the assignment of absorbers to halos, fake_spectra/haloassigned_spectra.py:49-206.  Column densities are
    integers (multiples of some unit), positions and thresholds exact reals. *)
From Coq Require Import ZArith List Bool Reals.
From Flocq Require Import Core.Raux.
From Verif Require Import RegionModel.
From Verif Require SightlineModel.
Import ListNotations.
Local Open Scope R_scope.

(** ** The absorbers of a spectrum *)

(** haloassigned_spectra.py:156-159: the test every pixel of the rolled spectrum is put to; [mx] is its maximum. *)
Definition above_cut (thresh relthresh : R) (mx x : Z) : bool :=
  if Rlt_dec thresh (IZR mx) then (if Rlt_dec thresh (IZR x) then true else false)
  else (if Rlt_dec (relthresh * IZR mx) (IZR x) then true else false).

(** Python's % for floats and a positive modulus (168). *)
Definition float_mod (x n : R) : R := x - n * IZR (Zfloor (x / n)).

(** numpy sum (haloassigned_spectra.py:166). *)
Definition total (l : list R) : R := fold_right Rplus 0 l.

(** numpy sum of a product of two arrays (haloassigned_spectra.py:165). *)
Definition weighted (w : list Z) (x : list Z) : R := total (map (fun p => IZR (fst p) * IZR (snd p)) (combine w x)).

(** haloassigned_spectra.py:163-169: one region [seg] of the rolled spectrum [lcolden].  The division at 168 is that of R
    (0/0 is 0 here and a NaN there; the pixels of a region are positive when the thresholds are not negative). *)
Definition region_pos (box : R) (nbins : nat) (roll : Z) (lcolden : list Z) (seg : nat * nat) : R :=
  let nn := map (fun i => (Z.of_nat i - roll)%Z) (SightlineModel.py_slice (fst seg) (snd seg) (seq 0 nbins)) in
  let llcolden := SightlineModel.py_slice (fst seg) (snd seg) lcolden in
  let zpos := weighted llcolden nn in
  let summ := total (map IZR llcolden) in
  float_mod (zpos / summ) (INR nbins) * (1 * box / INR nbins).

(** haloassigned_spectra.py:154-171: one iteration of the loop over sightlines.  None: an exception.  The bool array of line
    148 is overwritten before it is used and left out (its dtype np.bool does not exist in numpy 1.24 to 1.26). *)
Definition spectrum_regions (box thresh relthresh : R) (nbins : nat) (roll : Z) (lcolden : list Z) : option (list R) :=
  match SightlineModel.list_max lcolden with
  | None => None
  | Some mx =>
      match combine_regions (map (above_cut thresh relthresh mx) lcolden) 0 with
      | None => None
      | Some seps => Some (map (region_pos box nbins roll lcolden) seps)
      end
  end.

(** haloassigned_spectra.py:151-171: the loop over sightlines. *)
Fixpoint regions_loop (box thresh relthresh : R) (nbins : nat) (rolled : list (Z * list Z)) : option (list (list R)) :=
  match rolled with
  | [] => Some []
  | (roll, lcolden) :: rest =>
      match spectrum_regions box thresh relthresh nbins roll lcolden, regions_loop box thresh relthresh nbins rest with
      | Some z, Some zs => Some (z :: zs)
      | _, _ => None
      end
  end.

(** haloassigned_spectra.py:140-172, [den] being what get_col_density returned and nbins the length of its rows. *)
Definition get_contiguous_regions (box thresh relthresh : R) (nbins : nat) (den : list (list Z)) : option (list (list R)) :=
  match SightlineModel.get_rolled_spectra den with
  | None => None
  | Some rolled => regions_loop box thresh relthresh nbins rolled
  end.

(** ** Halos *)

Definition point := (R * R * R)%type.

(** haloassigned_spectra.py:123: proj_pos[ax] = zzp with ax = axis - 1; negative indices count from the end, None is an
    IndexError. *)
Definition put (axis : Z) (p : point) (z : R) : option point :=
  match p with (x, y, w) =>
    if ((axis - 1 =? 0) || (axis - 1 =? -3))%Z%bool then Some (z, y, w)
    else if ((axis - 1 =? 1) || (axis - 1 =? -2))%Z%bool then Some (x, z, w)
    else if ((axis - 1 =? 2) || (axis - 1 =? -1))%Z%bool then Some (x, y, z)
    else None
  end.

(** haloassigned_spectra.py:126-128: the squared distance, not periodic. *)
Definition dist2 (a b : point) : R :=
  match a, b with (x, y, z), (x', y', z') => (x - x') ^ 2 + (y - y') ^ 2 + (z - z') ^ 2 end.

(** haloassigned_spectra.py:129-137: the first halo (counted from [k]) containing the position, and its distance. *)
Fixpoint first_halo (k : nat) (p : point) (radii : list R) (cofm : list point) : option (nat * R) :=
  match cofm, radii with
  | c :: cofm', r :: radii' =>
      if Rlt_dec (dist2 c p) (r ^ 2) then Some (k, sqrt (dist2 c p)) else first_halo (S k) p radii' cofm'
  | _, _ => None
  end.

(** haloassigned_spectra.py:122-137: the loop over the positions of a sightline; proj_pos is overwritten each time. *)
Fixpoint assign_loop (axis : Z) (proj_pos : point) (radii : list R) (cofm : list point) (zs : list R)
  : option (list (nat * R)) :=
  match zs with
  | [] => Some []
  | z :: rest =>
      match put axis proj_pos z with
      | None => None
      | Some p =>
          match assign_loop axis p radii cofm rest with
          | None => None
          | Some out => Some (match first_halo 0 p radii cofm with Some h => h :: out | None => out end)
          end
      end
  end.

(** haloassigned_spectra.py:117-138.  Sightlines are pairs of a position and an axis; None: an IndexError (fewer sightlines
    than lists of positions, or the axis).  halos and dists are returned zipped.  The arrays of radii and centres have equal
    length (otherwise broadcasting raises, or a single radius is used for all). *)
Fixpoint assign_to_halo (lines : list (point * Z)) (radii : list R) (cofm : list point) (zpos : list (list R))
  {struct zpos} : option (list (list (nat * R))) :=
  match zpos with
  | [] => Some []
  | zs :: rest =>
      match lines with
      | [] => None
      | (c, ax) :: lines' =>
          match assign_loop ax c radii cofm zs, assign_to_halo lines' radii cofm rest with
          | Some h, Some hs => Some (h :: hs)
          | _, _ => None
          end
      end
  end.

(** unitsystem.py:7-25 as far as used here, with the hubble parameter and the redshift of the snapshot. *)
Record units := mkUnits { u_mass : R; u_length : R; u_grav : R; u_hubble : R; u_red : R }.

(** haloassigned_spectra.py:66-72 for one halo of mass [mm] and radius [rr]. *)
Definition virial_one (u : units) (mm rr : R) : R :=
  let cminkpch := u_length u / u_hubble u / (1 + u_red u) in
  let conv := u_mass u / 1e10 / cminkpch in
  let rr := if Req_EM_T rr 0 then 1 else rr in
  sqrt (u_grav u * conv * mm / rr) / 1e5.

(** The catalogue in memory, haloassigned_spectra.py:88-107 (velocities left out).  The index column may have been turned into
    floats (see CatalogModel). *)
Record catalogue := mkCat { sub_mass : list R; sub_radii : list R; sub_cofm : list point;
  sub_sub_mass : list R; sub_sub_radii : list R; sub_sub_cofm : list point;
  sub_sub_index : list nat; index_is_int : bool }.

(** haloassigned_spectra.py:91. *)
Definition solar_mass : R := 1.989e33.

(** haloassigned_spectra.py:97: the group masses are converted to solar masses on reading; the subhalo masses (103) are not. *)
Definition load_masses (unit_mass : R) (raw_group raw_sub : list R) : list R * list R :=
  (map (fun m => m * unit_mass / solar_mass) raw_group, raw_sub).

(** Indexing an array with an index that is not negative; None: an IndexError (haloassigned_spectra.py:53-61, 179). *)
Definition take {A} (l : list A) (i : nat) : option A := nth_error l i.

(** haloassigned_spectra.py:51-72 for one index. *)
Definition virial_index (u : units) (c : catalogue) (subhalo : bool) (i : nat) : option R :=
  let masses := if subhalo then sub_sub_mass c else sub_mass c in
  let radii := if subhalo then sub_sub_radii c else sub_radii c in
  match take masses i, take radii i with
  | Some m, Some r => Some (virial_one u m r)
  | _, _ => None
  end.

(** A comprehension or fancy index raises if one of its elements does (haloassigned_spectra.py:53, 60, 179). *)
Fixpoint all_some {A} (l : list (option A)) : option (list A) :=
  match l with
  | [] => Some []
  | None :: _ => None
  | Some x :: t => match all_some t with Some r => Some (x :: r) | None => None end
  end.

(** haloassigned_spectra.py:49-73 with a list of indices. *)
Definition virial_vel (u : units) (c : catalogue) (halos : list nat) (subhalo : bool) : option (list R) :=
  all_some (map (virial_index u c subhalo) halos).

(** haloassigned_spectra.py:75-86: the smallest resolved mass; [npart] is the number of gas particles, None standing for the
    missing attribute. *)
Definition min_halo_mass (omegam box : R) (npart : option R) (minpart : R) : R :=
  let rhom := 2.78e11 * omegam / 1e10 / (1e3 ^ 3) in
  let target_mass := match npart with Some n => box ^ 3 * rhom / n | None => box ^ 3 * rhom / 512 ^ 3 end in
  target_mass * minpart.

(** The halos and subhalos near each sightline, as stored in the object. *)
Definition nearby := (list (list nat) * list (list nat))%type.

(** What find_nearby_halos reads, and the result it may have stored earlier. *)
Record state := mkState { st_lines : list (point * Z); st_den : list (list Z); st_box : R; st_nbins : nat;
                          st_cat : catalogue; st_cache : option nearby }.

(** haloassigned_spectra.py:189-206.  [set_list] is list(set(...)): some enumeration of the distinct elements.  The
    printed statistics are left out. *)
Definition find_nearby_halos (set_list : list nat -> list nat) (s : state) : option (nearby * state) :=
  match st_cache s with
  | Some r => Some (r, s)
  | None =>
      match get_contiguous_regions (st_box s) 1e19 1e-2 (st_nbins s) (st_den s) with
      | None => None
      | Some zpos =>
          match assign_to_halo (st_lines s) (sub_radii (st_cat s)) (sub_cofm (st_cat s)) zpos,
                assign_to_halo (st_lines s) (sub_sub_radii (st_cat s)) (sub_sub_cofm (st_cat s)) zpos with
          | Some h, Some sh =>
              let r := (map (fun l => set_list (map fst l)) h, map (fun l => set_list (map fst l)) sh) in
              Some (r, mkState (st_lines s) (st_den s) (st_box s) (st_nbins s) (st_cat s) (Some r))
          | _, _ => None
          end
      end
  end.

(** numpy max (haloassigned_spectra.py:183); None for an empty array. *)
Fixpoint list_Rmax (l : list R) : option R :=
  match l with
  | [] => None
  | x :: t => match list_Rmax t with None => Some x | Some m => Some (Rmax x m) end
  end.

(** haloassigned_spectra.py:183-184: the first of [both] whose velocity is the maximum. *)
Fixpoint first_equal (m : R) (both : list nat) (v : list R) : option nat :=
  match both, v with
  | b :: both', x :: v' => if Req_EM_T x m then Some b else first_equal m both' v'
  | _, _ => None
  end.

(** haloassigned_spectra.py:179-186 for one sightline: the index of the halo, or -1.  The parents are fancy-indexed out of
    sub_sub_index; if that is an array of floats and a subhalo was found, indexing sub_mass with them is an IndexError. *)
Definition nearest_one (set_list : list nat -> list nat) (u : units) (c : catalogue) (halos subhalos : list nat) : option Z :=
  match all_some (map (take (sub_sub_index c)) subhalos) with
  | None => None
  | Some parents =>
      let both := set_list (parents ++ halos) in
      match both with
      | [] => Some (-1)%Z
      | _ :: _ =>
          if negb (index_is_int c) && negb (match subhalos with [] => true | _ => false end) then None
          else
            match virial_vel u c both false with
            | None => None
            | Some v =>
                match list_Rmax v with
                | None => None
                | Some m => match first_equal m both v with Some b => Some (Z.of_nat b) | None => None end
                end
            end
      end
  end.

(** haloassigned_spectra.py:174-187. *)
Definition find_nearest_halo (set_list : list nat -> list nat) (u : units) (s : state) : option (list Z * state) :=
  match find_nearby_halos set_list s with
  | None => None
  | Some ((halos, subhalos), s') =>
      match all_some (map (fun p => nearest_one set_list u (st_cat s) (fst p) (snd p)) (combine halos subhalos)) with
      | Some out => Some (out, s')
      | None => None
      end
  end.

(** haloassigned_spectra.py:228, 256, 269: the sightlines the plots keep. *)
Definition plot_keeps (halo : Z) : bool := (0 <? halo)%Z.

(** haloassigned_spectra.py:39: those the mass histogram keeps. *)
Definition hist_keeps (halo : Z) : bool := negb (halo =? -1)%Z.

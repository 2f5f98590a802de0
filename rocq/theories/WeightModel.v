(** Model of the density weighted quantities, fake_spectra/spectra.py:945-1043 (get_velocity, get_temp,
    get_dens_weighted_density), on top of the interpolation of PipelineModel.  The caches are those of StoreModel and are
    left out: these are first calls.  Exact real arithmetic. *)
From Coq Require Import ZArith List Reals Bool.
From Verif Require Import Containers IndexModel AbsorptionModel VoronoiModel PipelineModel.
Import ListNotations.
Local Open Scope R_scope.

(** The class of the snapshot: get_n_segments of BigFileSnapshot (abstractsnapshot.py:337) has no default part_type. *)
Inductive format := HDF5 | BigFile.

(** TypeError of a missing argument; ValueError of arrays of different lengths; a failure of the interpolation. *)
Inductive outcome (A : Type) := Done (a : A) | MissingArgument | Lengths | Failed.
Arguments Done {A}. Arguments MissingArgument {A}. Arguments Lengths {A}. Arguments Failed {A}.

(** The particle with elem_den replaced. *)
Definition with_dens (g : gas) (d : R) : gas := mkGas (g_part g) (g_vel g) d (g_temp g).

(** spectra.py:947-949, 996-998, 1017-1020: nothing near the lines gives zeros.  [prepare] is what is passed as density. *)
Definition weight_segment (prepare : list gas -> outcome (list gas)) (positive_only : bool) (su : setup)
    (ls : list sightline) (s : segment) : outcome (list R) :=
  match read_particles positive_only su ls (fst s) (fst (snd s)) with
  | None => Failed
  | Some [] => Done (repeat 0 (length ls * su_nbins su))
  | Some kept =>
      match prepare kept with
      | Done kept' => match interpolate Column su ls kept' (fst (snd (snd s))) (snd (snd (snd s))) with
                      | Some a => Done a
                      | None => Failed
                      end
      | MissingArgument => MissingArgument
      | Lengths => Lengths
      | Failed => Failed
      end
  end.

(** spectra.py:1000-1001, and 954-955 for one axis: elem_den*weight/phys. *)
Definition times (w : gas -> R) (phys : R) (kept : list gas) : outcome (list gas) :=
  Done (map (fun g => with_dens g (g_dens g * w g / phys)) kept).

(** spectra.py:1020-1023: the second read is for all of the element (ion -1), which is not filtered (601-605); the two
    arrays are multiplied.  Arrays of different lengths fail there or at the length check of py_module.cpp:141.
    [species] is the density of the element in a particle, [all_near] the second read. *)
Definition times_species (species : gas -> R) (rscale phys : R) (all_near kept : list gas) : outcome (list gas) :=
  if Nat.eqb (length kept) (length all_near)
  then Done (map (fun p => with_dens (fst p) (g_dens (fst p) / phys * (species (snd p) / rscale))) (combine kept all_near))
  else Lengths.

(** spectra.py:964-973: the segments of this rank one after the other. *)
Definition numerator (seg : segment -> outcome (list R)) (first : segment) (rest : list segment) : outcome (list R) :=
  fold_left (fun acc s =>
      match acc with
      | Done a => match seg s with Done b => Done (add_arrays a b) | e => e end
      | e => e
      end) rest (seg first).

(** spectra.py:875-879 and 862-873, 801-831: the density, of all ranks.  For Arepo (kernel 2) a rank loads all its segments
    before the interpolation (814-817). *)
Definition colden_rank (positive_only : bool) (su : setup) (ls : list sightline) (r : segment * list segment)
  : option (list R) :=
  match su_kern su with
  | Voronoi => interpolate_loaded Column positive_only su ls
                 (map (fun s => (fst s, fst (snd s))) (fst r :: snd r)) (fst (snd (snd (fst r)))) (snd (snd (snd (fst r))))
  | _ => compute_rank Column positive_only su ls (fst r) (snd r)
  end.
(** spectra.py:875-879, with the definition above. *)
Definition get_density (phys : R) (positive_only : bool) (su : setup) (ls : list sightline)
    (ranks : list (segment * list segment)) : option (list R) :=
  option_map (map (fun c => c / phys))
    (fold_left (fun acc r => match acc, colden_rank positive_only su ls r with
       | Some a, Some b => Some (add_arrays a b)
       | _, _ => None
       end) ranks (Some (repeat 0 (length ls * su_nbins su)))).

(** spectra.py:974-976: den[den == 0] = 1 and result /= den *)
Definition divisor (d : R) : R := if Req_EM_T d 0 then 1 else d.
(** spectra.py:974-976, with the definition above. *)
Fixpoint divide (num den : list R) : list R :=
  match num, den with
  | n :: num', d :: den' => n / divisor d :: divide num' den'
  | _, _ => []
  end.

(** spectra.py:958-976 for a quantity with one value per pixel.  [mine] is this rank, [ranks] all of them, each with the
    loop orders of the computation of the density. *)
Definition mass_weight (fmt : format) (seg : segment -> outcome (list R)) (phys : R) (positive_only : bool) (su : setup)
    (ls : list sightline) (mine : segment * list segment) (ranks : list (segment * list segment)) : outcome (list R) :=
  match fmt with
  | BigFile => MissingArgument
  | HDF5 =>
      match numerator seg (fst mine) (snd mine) with
      | Done num => match get_density phys positive_only su ls ranks with
                    | Some den => Done (divide num den)
                    | None => Failed
                    end
      | e => e
      end
  end.

(** spectra.py:994-1013 *)
Definition get_temp (fmt : format) (phys : R) (positive_only : bool) (su : setup) (ls : list sightline)
    (mine : segment * list segment) (ranks : list (segment * list segment)) : outcome (list R) :=
  mass_weight fmt (weight_segment (times g_temp phys) positive_only su ls) phys positive_only su ls mine ranks.

(** spectra.py:1015-1043.  The near particles of the second read are those of the first without the filter. *)
Definition species_segment (species : gas -> R) (rscale phys : R) (positive_only : bool) (su : setup)
    (ls : list sightline) (s : segment) : outcome (list R) :=
  match read_particles false su ls (fst s) (fst (snd s)) with
  | None => Failed
  | Some near => weight_segment (times_species species rscale phys near) positive_only su ls s
  end.
(** spectra.py:1015-1043, with the definition above. *)
Definition get_dens_weighted_density (fmt : format) (species : gas -> R) (rscale phys : R) (positive_only : bool)
    (su : setup) (ls : list sightline) (mine : segment * list segment) (ranks : list (segment * list segment))
  : outcome (list R) :=
  mass_weight fmt (species_segment species rscale phys positive_only su ls) phys positive_only su ls mine ranks.

(** spectra.py:953-954: component [ax] of Vel (0, 1 or 2) times sqrt(atime) *)
Definition component (ax : nat) (v : R * R * R) : R :=
  let '(x, y, z) := v in match ax with O => x | 1%nat => y | _ => z end.
(** spectra.py:953-954, with the definition above. *)
Definition vel_weight (atime : R) (ax : nat) (g : gas) : R := component ax (g_vel g) * sqrt atime.

(** spectra.py:976-981: numpy tries to divide the array of shape (lines, pixels, 3) by the one of shape (lines, pixels), which
    it aligns with the last two axes; it can if there are three pixels and one or three lines, or one of each. *)
Definition broadcasts (lines pixels : nat) : bool :=
  (Nat.eqb pixels 1 || Nat.eqb pixels 3) && (Nat.eqb lines 1 || Nat.eqb lines pixels).
(** spectra.py:976-981, with the definition above. *)
Definition den_at (lines pixels : nat) (den : list R) (i j ax : nat) : R :=
  if broadcasts lines pixels
  then nth ((if Nat.eqb lines 1 then 0 else j) * pixels + (if Nat.eqb pixels 1 then 0 else ax)) den 0
  else nth (i * pixels + j) den 0.

(** spectra.py:945-992: the value at line i, pixel j and axis ax. *)
Definition get_velocity (fmt : format) (atime phys : R) (positive_only : bool) (su : setup) (ls : list sightline)
    (mine : segment * list segment) (ranks : list (segment * list segment)) : outcome (nat -> nat -> nat -> R) :=
  match fmt with
  | BigFile => MissingArgument
  | HDF5 =>
      let num ax := numerator (weight_segment (times (vel_weight atime ax) phys) positive_only su ls) (fst mine) (snd mine) in
      match num 0%nat, num 1%nat, num 2%nat with
      | Done n0, Done n1, Done n2 =>
          match get_density phys positive_only su ls ranks with
          | Some den => Done (fun i j ax =>
              nth (i * su_nbins su + j) (match ax with O => n0 | 1%nat => n1 | _ => n2 end) 0 /
              divisor (den_at (length ls) (su_nbins su) den i j ax))
          | None => Failed
          end
      | Done _, Done _, e | Done _, e, _ | e, _, _ =>
          match e with MissingArgument => MissingArgument | Lengths => Lengths | _ => Failed end
      end
  end.

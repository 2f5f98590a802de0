(** Theorems about cosmological distances and stellar emission (C80, C81). *)
From Coquelicot Require Import Coquelicot.
From Coq Require Import List Bool Reals String Lia Lra.
From Verif Require Import EmissionModel EmissionSpec EmissionProofs EmissionProofs2.
Import ListNotations.
Local Open Scope R_scope.

(** The comoving distance differs from the integral of c/H by no more than this, whatever the cosmology. *)
Theorem C80_comoving : forall h0 om z, 0 < h0 -> 0 <= z -> 0 <= om -> 0 <= om + 4 * (1 - om - radiation (h0 / 100)) ->
  exists d, comoving_distance h0 om z d /\ (forall d', comoving_distance h0 om z d' -> d' = d) /\
    Rabs (fst (fst (calculator h0 om z)) - d) <=
      299792.458 / h0 * (ln (1 + z) / 1998 * ((1 + z) ^ 2 / expansion om (h0 / 100) z - 1)).
Proof. exact C80_comoving_aux. Qed.

(** With enough matter the error is of second order in the spacing of the nodes. *)
Theorem C80_accurate : forall h0 om z, 0 < h0 -> 0 <= z -> 0 <= om -> 0 <= om + 4 * (1 - om - radiation (h0 / 100)) ->
  8 * (1 - om - radiation (h0 / 100)) * radiation (h0 / 100) <= om ^ 2 ->
  forall d, comoving_distance h0 om z d ->
    Rabs (fst (fst (calculator h0 om z)) - d) <=
      299792.458 / h0 * ((ln (1 + z) / 1998) ^ 2 *
        ((om + 4 * (1 - om - radiation (h0 / 100)) / (1 + z) ^ 3) * (1 + z) ^ 6 / (2 * expansion om (h0 / 100) z ^ 3))).
Proof. exact C80_accurate_aux. Qed.

(** The hypotheses hold of a usual cosmology. *)
Example C80_example : 0 < 70 /\ 0 <= 3 /\ 0 <= 0.3 /\ 0 <= 0.3 + 4 * (1 - 0.3 - radiation (70 / 100)) /\
  8 * (1 - 0.3 - radiation (70 / 100)) * radiation (70 / 100) <= 0.3 ^ 2.
Proof. unfold radiation. repeat split; lra. Qed.

(** The three distances are in the ratios of a flat universe. *)
Theorem C80_ratios : forall h0 om z, -1 < z ->
  let '(dc, da, dl) := calculator h0 om z in da = dc / (1 + z) /\ dl = dc * (1 + z).
Proof. exact C80_ratios_aux. Qed.

(** An angle of so many seconds subtends the angle in radians times the comoving distance, in kpc/h. *)
Theorem C80_size : forall arcsec z h om, -1 < z -> 0 < h ->
  distance arcsec z h om = arcsec / 3600 * (PI / 180) * (fst (fst (calculator (h * 100) om z)) * 1000 * h).
Proof. exact C80_size_aux. Qed.

(** The flux of a star of absolute magnitude m, dimmed by the luminosity distance, is that of its apparent magnitude. *)
Theorem C81_modulus : forall m dl m' band f f', 0 < dl -> apparent_magnitude m dl m' ->
  maginJy m band = Some f -> maginJy m' band = Some f' -> f * apparentflux dl = f'.
Proof. exact C81_modulus_aux. Qed.

(** Five magnitudes are a factor of a hundred. *)
Theorem C81_five : forall m band f f', maginJy m band = Some f -> maginJy (m + 5) band = Some f' -> f = 100 * f'.
Proof. exact C81_five_aux. Qed.

(** Magnitude zero is the flux of the table, and only for the eight bands there is one. *)
Theorem C81_zero : forall band f, maginJy 0 band = Some f <->
  In (band, f) [("U", 1810); ("B", 4260); ("V", 3640); ("K", 670); ("g", 3730); ("r", 4490); ("i", 4760); ("z", 4810)]%string.
Proof. exact C81_zero_aux. Qed.

Example C81_example : maginJy 0 "B" = Some 4260 /\ apparent_magnitude (-20) 1 5 /\ maginJy 5 "B" = Some 42.6.
Proof.
  assert (Z : maginJy 0 "B" = Some 4260) by (apply C81_zero; cbn; auto).
  split; [exact Z|split].
  - unfold apparent_magnitude. replace (1 * 1e6 / 10) with (10 ^ 5) by lra. rewrite ln_pow by lra.
    assert (0 < ln 10) by (rewrite <- ln_1; apply ln_increasing; lra). replace (INR 5) with 5 by (cbn; lra). field. lra.
  - destruct (maginJy 5 "B") as [f'|] eqn:E; [|discriminate E]. f_equal.
    assert (T := C81_five 0 "B" 4260 f' Z). rewrite Rplus_0_l in T. specialize (T E). lra.
Qed.

(** Each sightline gets the flux of all the stars near it; a segment with no star near any sightline is a ValueError. *)
Theorem C81_stars : forall (star line : Type) (mags : star -> list R) (near : R -> line -> star -> bool) stars lines band hh k,
  band_column band = Some k ->
  ((exists s l, In s stars /\ In l lines /\ near hh l s = true) ->
   exists out, read_stellar_data star line mags near stars lines band hh = Ok out /\
     Forall2 (fun l x => exists fs, Forall2 (fun s f => maginJy (nth k (mags s) 0) band = Some f) (filter (near hh l) stars) fs /\
                x = fold_right Rplus 0 fs) lines out) /\
  ((forall s l, In s stars -> In l lines -> near hh l s = false) ->
   read_stellar_data star line mags near stars lines band hh = ValueErr).
Proof. exact C81_stars_aux. Qed.

(** The columns are those of the eight bands in the order U B V K g r i z, and other bands are a KeyError. *)
Theorem C81_bands : forall (star line : Type) (mags : star -> list R) (near : R -> line -> star -> bool) stars lines band hh,
  (forall k, band_column band = Some k <-> nth_error ["U"; "B"; "V"; "K"; "g"; "r"; "i"; "z"]%string k = Some band) /\
  (~ In band ["U"; "B"; "V"; "K"; "g"; "r"; "i"; "z"]%string ->
   read_stellar_data star line mags near stars lines band hh = KeyErr).
Proof. exact C81_bands_aux. Qed.

Example C81_stars_example : (exists s l, In s [3%nat; 8%nat] /\ In l [2%nat; 5%nat] /\ Nat.leb (s - l) 1 = true).
Proof. exists 3%nat, 2%nat. repeat split; cbn; auto. Qed.

(** get_emflux never returns an emission: every call of any sequence of calls on a new object is a TypeError. *)
Theorem C81_emflux_refuted : forall on_disc calls,
  let step := fun (acc : list (res (list R)) * stellar) (c : string * R * R * R * R) =>
    match c with (band, pixelsz, z, h, om) =>
      let (r, s) := get_emflux on_disc band pixelsz z h om (snd acc) in (fst acc ++ [r], s) end in
  fold_left step calls ([], []) = (map (fun _ => TypeErr) calls, []).
Proof. exact C81_never_aux. Qed.

(** An array put into the dictionary by other means would be dimmed again by each call. *)
Theorem C81_again_refuted : forall on_disc band pixelsz z h om s e, (1 < List.length e)%nat ->
  find_key s (band, distance pixelsz z h om) = Some e ->
  let a := apparentflux (snd (calculator (h * 100) om z)) in
  exists s' s'', get_emflux on_disc band pixelsz z h om s = (Ok (map (fun x => x * a) e), s') /\
    get_emflux on_disc band pixelsz z h om s' = (Ok (map (fun x => x * a * a) e), s'').
Proof. exact C81_again_aux. Qed.

Print Assumptions C80_comoving.
Print Assumptions C80_accurate.
Print Assumptions C80_ratios.
Print Assumptions C80_size.
Print Assumptions C81_modulus.
Print Assumptions C81_five.
Print Assumptions C81_zero.
Print Assumptions C81_stars.
Print Assumptions C81_bands.
Print Assumptions C81_emflux_refuted.
Print Assumptions C81_again_refuted.

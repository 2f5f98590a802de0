(** Properties C34 and C51: the table of atomic lines. *)
From Coq Require Import ZArith List Bool Ascii String Lia.
From Verif Require Import LineModel LineSpec LineProofs LineProofs2.
Import ListNotations.
Local Open Scope Z_scope.

(** ** C34 *)

(** Canonical numerals of every size are parsed to their number. *)
Theorem C34_canonical : forall n, 0 <= n -> roman_to_int (numeral n) = Some n.
Proof. exact roman_canonical. Qed.
Print Assumptions C34_canonical.

(** A string is accepted exactly when it consists of the seven capital letters (so lower case
    is rejected, like any other character). *)
Theorem C34_accepts_iff : forall s,
  (exists n, roman_to_int s = Some n) <-> Forall (fun c => In c (S_ "MDCLXVI")) s.
Proof. exact roman_accepts. Qed.
Print Assumptions C34_accepts_iff.

(** The species and ion of a table entry are read back: two columns for the symbol, four for
    the numeral, anything after. *)
Theorem C34_species_parsed : forall sp n rest,
  symbol sp -> 0 < n -> (List.length (numeral n) <= 4)%nat ->
  find_species (pad 2 sp ++ pad 4 (numeral n) ++ rest) = Some (sp, n).
Proof. exact find_species_ok. Qed.
Print Assumptions C34_species_parsed.

Example C34_example :
  numeral 14 = S_ "XIV" /\ numeral 3999 = S_ "MMMCMXCIX" /\
  find_species (S_ "C IV  1548.2049 0.1899 2.643E8") = Some (S_ "C", 4) /\
  find_species (S_ "SiII* 1264.7377") = None /\ roman_to_int (S_ "iv") = None.
Proof. repeat split. Qed.

(** Malformed numerals are not rejected, contrary to the documentation of the function. *)
Theorem C34_malformed_refuted : exists s n,
  roman_to_int s = Some n /\ forall m, 0 <= m -> numeral m <> s.
Proof. exact C34_malformed_aux. Qed.
Print Assumptions C34_malformed_refuted.

Example C34_malformed_example :
  roman_to_int (S_ "IL") = Some 49 /\ roman_to_int (S_ "VVVIV") = Some 19.
Proof. split; reflexivity. Qed.

(** The four column limit is needed: Fe XVIII would be read as Fe XVII. *)
Theorem C34_long_numeral_refuted : exists sp n rest,
  symbol sp /\ 0 < n /\ In sp known_species /\
  find_species (pad 2 sp ++ numeral n ++ rest) = Some (sp, 17) /\ n = 18.
Proof. exact C34_long_aux. Qed.
Print Assumptions C34_long_numeral_refuted.

(** ** C51 *)

(** A lookup returns the last line of the file describing that species, ion and integer
    wavelength, and fails exactly when there is none. *)
Theorem C51_lookup_last : forall Line (parse : str -> option (Z * Line)) lines t sp ion w l,
  read_vpfit Line parse lines = Some t ->
  (lookup Line (sp, ion, w) t = Some l <->
   exists pre line post, lines = pre ++ line :: post /\ describes parse line sp ion w l /\
     forall line' l', In line' post -> ~ describes parse line' sp ion w l').
Proof. exact C51_last_aux. Qed.
Print Assumptions C51_lookup_last.

Example C51_example :
  exists t, read_vpfit string (fun l => Some (Z.of_nat (List.length l), "x"%string))
     [S_ "# comment"; S_ "H I   1215"; S_ "D I   1215"; S_ "C IV  1548.2"] = Some t /\
   lookup string (S_ "C", 4, 12) t = Some "x"%string /\ List.length t = 2%nat.
Proof. eexists. split; [reflexivity|]. split; reflexivity. Qed.

(** A file is read exactly if the numbers of each line of one of the nine species can be: comments, other species and everything that does not
    begin with a species are passed over. *)
Theorem C51_reads : forall Line (parse : str -> option (Z * Line)) lines, (exists t, read_vpfit Line parse lines = Some t) <->
  forall line sp ion, In line lines -> find_species line = Some (sp, ion) -> In sp known_species -> 0 <= ion -> parse line <> None.
Proof. exact C51_reads_aux. Qed.
Print Assumptions C51_reads.

(** Two lines of the shipped table whose wavelengths agree up to the decimals: the strong O I
    988.77 line is replaced by the 84 times weaker 988.58 line and cannot be looked up. *)
Theorem C51_collision_refuted : forall Line (parse : str -> option (Z * Line)) strong weak,
  let l1 := S_ "O I    988.7734 0.0465  2.26E8  M03" in
  let l2 := S_ "O I    988.5778 0.000553  6.29E6  M03" in
  parse l1 = Some (988, strong) -> parse l2 = Some (988, weak) ->
  exists t, read_vpfit Line parse [l1; l2] = Some t /\
    lookup Line (S_ "O", 1, 988) t = Some weak /\ List.length t = 1%nat.
Proof. exact C51_collision_aux. Qed.
Print Assumptions C51_collision_refuted.

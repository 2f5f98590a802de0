(** Vocabulary for the statements about the cache and the save file. *)
From Coq Require Import ZArith List String.
From Verif Require Import StoreModel.
Import ListNotations.
Local Open Scope Z_scope.

(** Line wavelengths that are exactly doubles. *)
Definition in_range (k : key) : Prop :=
  match k with KTau _ _ l => - 2 ^ 53 <= l <= 2 ^ 53 | _ => True end.

Section Spec.
Context {A H : Type} (size : A -> nat).

(** A complete file holds the array a under the key k. *)
Definition stored (F : file A H) (k : key) (a : A) : Prop :=
  present F (fst (path k)) = true /\ In (path k, a) (f_data F).

(** A file as this code writes it (possibly an older version, without some groups): each dataset is named by a key,
    once; the groups for optical depths and column densities are there. *)
Definition written (F : file A H) : Prop :=
  NoDup (map fst (f_data F)) /\ (forall p a, In (p, a) (f_data F) -> exists k, in_range k /\ p = path k) /\
  present F GTau = true /\ present F (GPlain TauObs) = true /\ present F (GPlain ColDen) = true.

(** Temperatures and density-weighted densities: not loaded by save_file. *)
Definition neglected (k : key) : Prop :=
  match k with KDerived Temperature _ _ | KDerived DensWeightDens _ _ => True | _ => False end.

(** What a call on a new object without a file returns. *)
Definition value (fresh : key -> A) (weighted : key -> A -> A) (k : key) : A :=
  match k with
  | KDerived _ e i => weighted k (fresh (KPlain ColDen e i))
  | _ => fresh k
  end.

(** The array known under k if there is one, else what is computed, from the known column density if there is one. *)
Inductive answer (known : key -> A -> Prop) (fresh : key -> A) (weighted : key -> A -> A) : key -> A -> Prop :=
| answer_known : forall k a, known k a -> answer known fresh weighted k a
| answer_tau : forall e i l, (forall a, ~ known (KTau e i l) a) -> answer known fresh weighted (KTau e i l) (fresh (KTau e i l))
| answer_plain : forall p e i, (forall a, ~ known (KPlain p e i) a) -> answer known fresh weighted (KPlain p e i) (fresh (KPlain p e i))
| answer_derived : forall d e i c, (forall a, ~ known (KDerived d e i) a) -> answer known fresh weighted (KPlain ColDen e i) c ->
    answer known fresh weighted (KDerived d e i) (weighted (KDerived d e i) c).

Definition cached (o : obj A H) (k : key) (a : A) : Prop := In (k, a) (cache o).
Definition one_each (o : obj A H) : Prop := NoDup (map fst (cache o)).

(** Each cached array is the true one, or a placeholder for the true one in the file. *)
Definition faithful (fresh : key -> A) (weighted : key -> A -> A) (f : fstate A H) (o : obj A H) : Prop :=
  one_each o /\ forall k a, cached o k a ->
    in_range k /\ ((1 < size a)%nat /\ a = value fresh weighted k \/
                   (size a <= 1)%nat /\ exists F, f = Good F /\ stored F k (value fresh weighted k)).

(** If there is a save file, it was written by this code. *)
Definition file_ok (f : fstate A H) : Prop := forall F, f = Good F -> written F.

(** No temperature or density-weighted density is still unread. *)
Definition all_read (o : obj A H) : Prop := forall k a, cached o k a -> neglected k -> (1 < size a)%nat.

(** What the accesses of a history return. *)
Fixpoint accesses (ops : list op) : list key :=
  match ops with [] => [] | Get _ k :: ops' => k :: accesses ops' | Save :: ops' => accesses ops' end.

(** Large enough arrays are computed. *)
Definition large (fresh : key -> A) (weighted : key -> A -> A) : Prop :=
  (forall k, (1 < size (fresh k))%nat) /\ (forall k c, (1 < size (weighted k c))%nat).

(** The contents F are on the disk. *)
Definition recoverable (d : disk A H) (F : file A H) : Prop := main d = Good F \/ backup d = Good F.
End Spec.

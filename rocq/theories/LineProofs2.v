(** Which line files can be read. *)
From Coq Require Import ZArith List Bool Ascii String Lia.
From Verif Require Import LineModel LineSpec LineProofs.
Import ListNotations.
Local Open Scope Z_scope.

Section Table.
Variable Line : Type.
Variable parse : str -> option (Z * Line).

Lemma str_eqb_in : forall sp l, existsb (str_eqb sp) l = true <-> In sp l.
Proof.
  intros sp l. rewrite existsb_exists. split.
  - intros [x [I E]]. apply str_eqb_eq in E. subst. exact I.
  - intros I. exists sp. split; [exact I|]. apply str_eqb_eq. reflexivity.
Qed.

Lemma read_some : forall lines t0, (exists t, fold_left (read_line Line parse) lines (Some t0) = Some t) <->
  forall line sp ion, In line lines -> find_species line = Some (sp, ion) -> In sp known_species -> 0 <= ion -> parse line <> None.
Proof.
  induction lines as [|line lines IH]; intros t0; cbn [fold_left]; [split; [intros _ ? ? ? []|intros _; exists t0; reflexivity]|].
  unfold read_line at 2. destruct (find_species line) as [[sp ion]|] eqn:F.
  - destruct (negb (existsb (str_eqb sp) known_species) || (ion <? 0)) eqn:B.
    + rewrite IH. split; intros A l s i; [|intros I; apply A; right; exact I]. intros [<-|I] F' K P; [|apply (A l s i I F' K P)].
      rewrite F in F'. injection F' as <- <-. apply orb_true_iff in B. destruct B as [B|B]; [|apply Z.ltb_lt in B; lia].
      apply negb_true_iff in B. apply str_eqb_in in K. congruence.
    + apply orb_false_iff in B. destruct B as [B1 B2]. apply negb_false_iff, str_eqb_in in B1. apply Z.ltb_ge in B2.
      destruct (parse line) as [[w l]|] eqn:P.
      * rewrite IH. split; intros A l' s i; [|intros I; apply A; right; exact I]. intros [<-|I] F' K Q; [congruence|apply (A l' s i I F' K Q)].
      * rewrite read_line_none. split; [intros [t E]; discriminate|]. intros A. exfalso. exact (A line sp ion (or_introl eq_refl) F B1 B2 P).
  - rewrite IH. split; intros A l s i; [|intros I; apply A; right; exact I]. intros [<-|I] F' K P; [congruence|apply (A l s i I F' K P)].
Qed.

Lemma C51_reads_aux : forall lines, (exists t, read_vpfit Line parse lines = Some t) <->
  forall line sp ion, In line lines -> find_species line = Some (sp, ion) -> In sp known_species -> 0 <= ion -> parse line <> None.
Proof. intros lines. apply read_some. Qed.
End Table.

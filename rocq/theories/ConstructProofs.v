(** Proofs about the constructors. *)
From Coq Require Import Ascii String Reals ZArith Lra Lia Bool.
From Flocq Require Import Core.Raux.
From Coq Require Import List Arith.
From Verif Require Import OpenModel OpenSpec OpenProofs SightlineModel SightlineSpec SightlineProofs.
From Verif Require SetupModel SetupSpec SetupProofs.
From Verif Require Import ConstructModel ConstructSpec.
Import ListNotations.
Local Open Scope string_scope.

Lemma toward_trunc : forall x, toward_zero x (Ztrunc x).
Proof.
  intros x. unfold toward_zero. destruct (Rle_or_lt 0 x) as [H|H].
  - left. split; [exact H|]. rewrite Ztrunc_floor by exact H. split; [apply Zfloor_lb|]. apply Zfloor_ub.
  - right. split; [lra|]. rewrite Ztrunc_ceil by lra. pose proof (Zceil_ub x). pose proof (Zceil_lb x). lra.
Qed.

Lemma toward_unique : forall x y z, toward_zero x y -> toward_zero x z -> y = z.
Proof.
  intros x y z H K. assert ((IZR y < IZR z + 1)%R /\ (IZR z < IZR y + 1)%R) as [A B].
  { unfold toward_zero in *. destruct H as [[H1 H2]|[H1 H2]], K as [[K1 K2]|[K1 K2]]; split; try lra.
    - assert (Z : (z < 1)%Z) by (apply lt_IZR; lra). assert (Y : (-1 < y)%Z) by (apply lt_IZR; lra).
      rewrite <- plus_IZR. apply IZR_lt. lia.
    - assert (Z : (-1 < z)%Z) by (apply lt_IZR; lra). assert (Y : (y < 1)%Z) by (apply lt_IZR; lra).
      rewrite <- plus_IZR. apply IZR_lt. lia. }
  rewrite <- plus_IZR in A, B. apply lt_IZR in A. apply lt_IZR in B. lia.
Qed.

Lemma kernel_takes : forall g k z, pick_kernel g k = Good z <-> takes_kernel g k z.
Proof.
  intros g k z. split.
  - destruct k as [|s|n]; cbn; [intros [= <-]; constructor| |discriminate].
    repeat (match goal with |- context [String.eqb s ?t] => destruct (String.eqb_spec s t) as [->|] end;
            [intros [= <-]; constructor; cbn; auto 10|]). discriminate.
  - intros [|s n H]; [reflexivity|]. cbn in H.
    repeat (destruct H as [[= <- <-]|H]; [reflexivity|]). destruct H.
Qed.

Lemma kernel_error : forall g k, (forall z, ~ takes_kernel g k z) ->
  pick_kernel g k = Raise (match k with KNum _ => ValueE | _ => TypeE end).
Proof.
  intros g k H. destruct (pick_kernel g k) as [z|e] eqn:E; [apply kernel_takes in E; elim (H z E)|].
  destruct k as [|s|n]; cbn in E; [discriminate| |congruence].
  repeat (match type of E with context [String.eqb s ?t] => destruct (String.eqb s t) end; [discriminate|]). congruence.
Qed.

Lemma cofm_takes : forall c p, set_cofm c = Good p <-> takes_cofm c p.
Proof.
  intros c p. split.
  - destruct c as [|arr l|arr rows]; cbn; [discriminate| |].
    + destruct (Nat.eqb_spec (length l) 3) as [E|E].
      * intros [= <-]. destruct l as [|x [|y [|z [|]]]]; try discriminate. constructor.
      * destruct arr; [|discriminate]. intros [= <-]. now constructor.
    + destruct arr; [|discriminate]. intros [= <-]. constructor.
  - intros [| |l H]; cbn; try reflexivity. destruct (Nat.eqb_spec (length l) 3); [contradiction|reflexivity].
Qed.

Lemma cofm_error : forall c, (forall p, ~ takes_cofm c p) -> set_cofm c = Raise AttributeE.
Proof.
  intros c H. destruct (set_cofm c) as [p|e] eqn:E; [apply cofm_takes in E; elim (H p E)|].
  destruct c as [|arr l|arr rows]; cbn in E; [congruence| |].
  - destruct (length l =? 3)%nat; [discriminate|]. destruct arr; congruence.
  - destruct arr; congruence.
Qed.

Lemma axis_takes : forall a x, set_axis a = Good x <-> takes_axis a x.
Proof.
  intros a x. split.
  - destruct a as [|v|arr l]; cbn; [discriminate| |].
    + intros [= <-]. constructor. apply toward_trunc.
    + destruct arr; [|discriminate]. intros [= <-]. constructor.
      induction l; constructor; auto using toward_trunc.
  - intros [v z H|l zs H]; cbn.
    + now rewrite (toward_unique _ _ _ (toward_trunc v) H).
    + f_equal. induction H; cbn; f_equal; eauto using toward_unique, toward_trunc.
Qed.

Lemma axis_error : forall a, (forall x, ~ takes_axis a x) ->
  set_axis a = Raise (match a with ANone => TypeE | _ => AttributeE end).
Proof.
  intros a H. destruct (set_axis a) as [x|e] eqn:E; [apply axis_takes in E; elim (H x E)|].
  destruct a as [|v|arr l]; cbn in E; [congruence|discriminate|]. destruct arr; congruence.
Qed.

Lemma check_ok : forall c a p x, takes_cofm c p -> takes_axis a x -> check_none c a = Good tt.
Proof. intros c a p x [] []; reflexivity. Qed.

Lemma setup_good : forall A (r : SetupModel.result A) o, of_setup r = Good o <-> r = SetupModel.Done o.
Proof. intros A [] o; cbn; split; congruence. Qed.

Lemma gas_good : forall s g b, gas_step s g = Good b <->
  match s with None => b = false | Some _ => (g = GasOk /\ b = true) \/ (g = GasAttribute /\ b = false) end.
Proof. intros [s|] [] [|]; cbn; split; intuition congruence. Qed.

(** ** From a snapshot *)

Lemma C99_built_aux : forall w a o, a_reload a = true ->
  (spectra w a = Good o <->
   exists s g k, snapshots w (a_num a) (a_base a) = Found s g /\
     takes_kernel g (a_kernel a) k /\ takes_cofm (a_cofm a) (cofm o) /\ takes_axis (a_axis a) (axis o) /\
     SetupModel.from_snapshot s (a_units a) (a_res a) (a_nbins a) (a_Hz a) = SetupModel.Done (pixels o) /\
     ((a_gasprop a (pixels o) = GasOk /\ has_gas o = true) \/ (a_gasprop a (pixels o) = GasAttribute /\ has_gas o = false)) /\
     NumLos o = length (axis o) /\ kernel_int o = Some k /\ has_snapshot o = true /\
     path o = save_path (dirs w) (a_base a) (a_num a) (a_savedir a) (a_savefile a)).
Proof.
  intros w a o R. unfold spectra, open_step. rewrite R. split.
  - destruct (snapshots w (a_num a) (a_base a)) as [s g| |] eqn:F; cbn [bind fst snd]; [| |discriminate].
    + destruct (pick_kernel g (a_kernel a)) as [k|] eqn:K; cbn [bind fst snd]; [|discriminate]. apply kernel_takes in K.
      destruct (set_cofm (a_cofm a)) as [c|] eqn:C; cbn [bind]; [|discriminate]. apply cofm_takes in C.
      destruct (set_axis (a_axis a)) as [x|] eqn:X; cbn [bind]; [|discriminate]. apply axis_takes in X.
      rewrite (check_ok _ _ _ _ C X). cbn [bind].
      destruct (of_setup _) as [px|] eqn:P; cbn [bind]; [|discriminate]. apply setup_good in P.
      destruct (gas_step _ _) as [b|] eqn:G; cbn [bind]; [|discriminate]. apply gas_good in G.
      intros [= <-]. cbn [cofm axis pixels has_gas NumLos kernel_int has_snapshot path].
      exists s, g, k. repeat (split; [assumption || reflexivity|]). reflexivity.
    + destruct (set_cofm (a_cofm a)); cbn [bind]; [|discriminate].
      destruct (set_axis (a_axis a)); cbn [bind]; [|discriminate].
      destruct (check_none _ _); cbn [bind]; discriminate.
  - intros (s & g & k & F & K & C & X & P & G & N & KI & HS & PA). rewrite F.
    rewrite (proj2 (kernel_takes _ _ _) K). cbn [bind fst snd]. rewrite (proj2 (cofm_takes _ _) C). cbn [bind].
    rewrite (proj2 (axis_takes _ _) X). cbn [bind]. rewrite (check_ok _ _ _ _ C X). cbn [bind].
    rewrite P. cbn [of_setup bind].
    rewrite (proj2 (gas_good (Some s) _ _) G). cbn [bind]. destruct o; cbn in *. congruence.
Qed.

Lemma C99_errors_aux : forall w a, a_reload a = true ->
  (snapshots w (a_num a) (a_base a) = BadSnapshot -> spectra w a = Raise IndexE) /\
  (forall s g, snapshots w (a_num a) (a_base a) = Found s g -> (forall z, ~ takes_kernel g (a_kernel a) z) ->
     spectra w a = Raise (match a_kernel a with KNum _ => ValueE | _ => TypeE end)) /\
  ((snapshots w (a_num a) (a_base a) = NoSnapshot \/
    exists s g z, snapshots w (a_num a) (a_base a) = Found s g /\ takes_kernel g (a_kernel a) z) ->
   ((forall c, ~ takes_cofm (a_cofm a) c) -> spectra w a = Raise AttributeE) /\
   (forall c, takes_cofm (a_cofm a) c -> (forall x, ~ takes_axis (a_axis a) x) ->
      spectra w a = Raise (match a_axis a with ANone => TypeE | _ => AttributeE end)) /\
   (forall c x, takes_cofm (a_cofm a) c -> takes_axis (a_axis a) x ->
      snapshots w (a_num a) (a_base a) = NoSnapshot -> spectra w a = Raise IOE)).
Proof.
  intros w a R. unfold spectra, open_step. rewrite R. split; [|split].
  - intros ->. reflexivity.
  - intros s g -> H. now rewrite (kernel_error _ _ H).
  - intros H.
    assert (O : exists sk, match snapshots w (a_num a) (a_base a) with
                | Found s g => bind (pick_kernel g (a_kernel a)) (fun k => Good (Some s, Some k))
                | NoSnapshot => Good (None, None)
                | BadSnapshot => Raise IndexE
                end = Good sk /\ (snapshots w (a_num a) (a_base a) = NoSnapshot -> fst sk = None)).
    { destruct H as [-> | (s & g & z & -> & K)]; [eexists; split; reflexivity|].
      rewrite (proj2 (kernel_takes _ _ _) K). eexists; split; [reflexivity|discriminate]. }
    destruct O as (sk & -> & N). cbn [bind]. split; [|split].
    + intros C. now rewrite (cofm_error _ C).
    + intros c C X. rewrite (proj2 (cofm_takes _ _) C). cbn [bind]. now rewrite (axis_error _ X).
    + intros c x C X NS. rewrite (proj2 (cofm_takes _ _) C). cbn [bind]. rewrite (proj2 (axis_takes _ _) X). cbn [bind].
      rewrite (check_ok _ _ _ _ C X). cbn [bind]. now rewrite (N NS).
Qed.

Lemma C99_none_aux : forall w a, spectra w a <> Raise RuntimeE.
Proof.
  intros w a. unfold spectra, open_step.
  destruct (snapshots w (a_num a) (a_base a)) as [s g| |]; cbn [bind]; [| |discriminate].
  - destruct (pick_kernel g (a_kernel a)) as [k|e] eqn:K; cbn [bind fst snd].
    2:{ destruct (a_kernel a) as [|t|]; cbn in K; try discriminate; [|congruence].
        repeat (match type of K with context [String.eqb t ?u] => destruct (String.eqb t u) end; [discriminate|]). congruence. }
    destruct (a_reload a).
    + destruct (set_cofm (a_cofm a)) as [c|e] eqn:C; cbn [bind].
      2:{ destruct (a_cofm a) as [|[] l|[] r]; cbn in C; try congruence; destruct (length l =? 3)%nat; congruence. }
      destruct (set_axis (a_axis a)) as [x|e] eqn:X; cbn [bind].
      2:{ destruct (a_axis a) as [|v|[] l]; cbn in X; congruence. }
      apply cofm_takes in C. apply axis_takes in X. rewrite (check_ok _ _ _ _ C X). cbn [bind].
      destruct (SetupModel.from_snapshot _ _ _ _ _); cbn [of_setup bind]; try discriminate.
      destruct (a_gasprop a _); cbn; discriminate.
    + destruct (files w _); cbn [bind]; [|discriminate].
      destruct (SetupModel.from_file _ _ _ _); cbn [of_setup bind]; try discriminate.
      destruct (a_gasprop a _); cbn; discriminate.
  - cbn [fst snd]. destruct (a_reload a).
    + destruct (set_cofm (a_cofm a)) as [c|e] eqn:C; cbn [bind].
      2:{ destruct (a_cofm a) as [|[] l|[] r]; cbn in C; try congruence; destruct (length l =? 3)%nat; congruence. }
      destruct (set_axis (a_axis a)) as [x|e] eqn:X; cbn [bind].
      2:{ destruct (a_axis a) as [|v|[] l]; cbn in X; congruence. }
      apply cofm_takes in C. apply axis_takes in X. rewrite (check_ok _ _ _ _ C X). cbn [bind]. discriminate.
    + destruct (files w _); cbn [bind]; [|discriminate].
      destruct (SetupModel.from_file _ _ _ _); cbn [of_setup bind]; try discriminate.
Qed.

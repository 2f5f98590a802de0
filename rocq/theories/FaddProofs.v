(** Proofs about the Voigt profile: symmetry, termination, the continued fraction. *)
From Coq Require Import Reals ZArith Lra Lia.
From Coquelicot Require Import Coquelicot.
From Coq Require Import List.
From Flocq Require Import Core.Raux.
From Verif Require Import FaddTable FaddModel FaddSpec.
Import ListNotations.
Local Open Scope R_scope.

(** ** Symmetry *)
Lemma sqr_opp : forall x, sqr (- x) = sqr x.
Proof. intros. unfold sqr. ring. Qed.

Lemma sinc_opp : forall x s, sinc (- x) (- s) = sinc x s.
Proof.
  intros. unfold sinc. rewrite Rabs_Ropp. destruct (Rlt_dec (Rabs x) 0.0001) as [Hx | Hx].
  - ring.
  - assert (x <> 0) by (intros ->; rewrite Rabs_R0 in Hx; lra). field. assumption.
Qed.

Lemma copysign_opp : forall v s, s <> 0 -> copysign v (- s) = - copysign v s.
Proof. intros. unfold copysign. destruct (Rlt_dec (- s) 0), (Rlt_dec s 0); lra. Qed.

Lemma cf_loop_opp : forall k xs ya wr wi,
  cf_loop k (- xs) ya (- wr) wi = (- fst (cf_loop k xs ya wr wi), snd (cf_loop k xs ya wr wi)).
Proof.
  induction k as [| k IH]; intros; [reflexivity |].
  cbn [cf_loop].
  replace (- wr * - wr + wi * wi) with (wr * wr + wi * wi) by ring.
  set (d := 0.5 * INR (S k) / (wr * wr + wi * wi)).
  replace (- xs - - wr * d) with (- (xs - wr * d)) by ring. apply IH.
Qed.

Lemma cf_value_opp : forall x ya xs, 0 <= ya -> x = Rabs xs ->
  cf_value x ya (- xs) = (fst (cf_value x ya xs), - snd (cf_value x ya xs)).
Proof.
  intros x ya xs Hya Hx. unfold cf_value.
  destruct (Rlt_dec 4000 (x + ya)) as [H1 | H1]; [destruct (Rlt_dec 10000000 (x + ya)) as [H2 | H2] |].
  - destruct (Rlt_dec ya x) as [H3 | H3]; cbn [fst snd].
    + assert (xs <> 0) by (intros ->; rewrite Rabs_R0 in Hx; lra).
      assert (xs * xs + ya * ya <> 0) by (pose proof (Rsqr_pos_lt xs H); unfold Rsqr in *; nra).
      f_equal; field; repeat split; try assumption; nra.
    + assert (ya <> 0) by lra.
      assert (xs * xs + ya * ya <> 0) by nra.
      f_equal; field; repeat split; try assumption; nra.
  - cbn [fst snd].
    replace (- xs * - xs) with (xs * xs) by ring.
    replace (2 * - xs * ya * (2 * - xs * ya)) with (2 * xs * ya * (2 * xs * ya)) by ring.
    f_equal; ring.
  - rewrite cf_loop_opp.
    destruct (cf_loop _ xs ya xs ya) as [wr wi]. cbn [fst snd].
    replace (- wr * - wr) with (wr * wr) by ring. f_equal; ring.
Qed.

Definition cconj (v : C) : C := (fst v, - snd v).

Lemma mid_ret_opp : forall x0 x y e s,
  mid_ret (- x0) x y e s = option_map cconj (mid_ret x0 x y e s).
Proof.
  intros. unfold mid_ret.
  destruct (if Rlt_dec (- (6)) y then _ else _) as [v |]; [| reflexivity].
  cbn [option_map]. f_equal. unfold cconj. destruct (Rlt_dec 5 y); cbn [fst snd].
  - f_equal. ring.
  - replace (- x0 * y) with (- (x0 * y)) by ring.
    replace (2 * - x0 * y) with (- (2 * x0 * y)) by ring.
    rewrite !sin_neg, cos_neg, !sinc_opp. f_equal; ring.
Qed.

Lemma finish_opp : forall x0 y ret s, x0 <> 0 ->
  finish (- x0) y (cconj ret) s = cconj (finish x0 y ret s).
Proof. intros. unfold finish, cconj. cbn [fst snd]. rewrite copysign_opp by assumption. f_equal. ring. Qed.

Lemma mirror_aux : forall w_im fuel x y, (forall t, w_im (- t) = - w_im t) ->
  w w_im fuel (- x) y =
  match w w_im fuel x y with Value v => Value (fst v, - snd v) | OutOfTable => OutOfTable | Unfinished => Unfinished end.
Proof.
  intros w_im fuel x y Hodd. unfold w.
  destruct (Req_EM_T x 0) as [-> | Hx].
  { destruct (Req_EM_T (- 0) 0) as [_ | E]; [| lra]. destruct (erfcx y); [| reflexivity]. cbn [fst snd]. reflexivity. }
  destruct (Req_EM_T (- x) 0) as [E | _]; [lra |].
  destruct (Req_EM_T y 0) as [Hy | Hy].
  { cbn [fst snd]. rewrite sqr_opp, Hodd. reflexivity. }
  rewrite Rabs_Ropp.
  destruct (cf_region_dec (Rabs x) (Rabs y)) as [HR | HR].
  { destruct (Rlt_dec y 0) as [Hn | Hn].
    - rewrite (cf_value_opp _ _ (- x)) by (try apply Rabs_pos; rewrite Rabs_Ropp; reflexivity).
      cbn [fst snd]. rewrite Ropp_involutive.
      replace ((Rabs y - x) * (x + Rabs y)) with ((Rabs y - - x) * (- x + Rabs y)) by ring.
      replace (2 * x * y) with (- (2 * - x * y)) by ring. rewrite cos_neg, sin_neg.
      repeat f_equal; ring.
    - rewrite cf_value_opp by (try apply Rabs_pos; reflexivity). reflexivity. }
  destruct (Rlt_dec (Rabs x) 10) as [H10 | H10].
  { match goal with |- context [match ?l with Some s => _ | None => OutOfTable end] => destruct l as [s |] end;
      [| reflexivity].
    rewrite mid_ret_opp. destruct (mid_ret x _ y _ s) as [ret |]; [| reflexivity].
    cbn [option_map]. rewrite finish_opp by assumption. reflexivity. }
  match goal with |- context [match ?l with Some s => _ | None => Unfinished end] => destruct l as [s |] end;
    [| reflexivity].
  f_equal. set (r := exp (- Rabs x * Rabs x)). change (r, 0) with ((r, 0) : C).
  replace ((r, 0) : C) with (cconj (r, 0)) at 1 by (unfold cconj; cbn [fst snd]; f_equal; ring).
  rewrite finish_opp by assumption. reflexivity.
Qed.

Lemma even_aux : forall w_im fuel x y, profile w_im fuel (- x) y = profile w_im fuel x y.
Proof.
  intros w_im fuel x y. unfold profile.
  assert (E : forall u, match w w_im fuel u y with Value v => Some (fst v) | _ => None end =
                    match w (fun _ => 0) fuel u y with Value v => Some (fst v) | _ => None end).
  { intros u. unfold w. destruct (Req_EM_T u 0); [reflexivity |]. destruct (Req_EM_T y 0); reflexivity. }
  rewrite (E (- x)), (E x), mirror_aux by (intros; ring).
  destruct (w (fun _ => 0) fuel x y); reflexivity.
Qed.

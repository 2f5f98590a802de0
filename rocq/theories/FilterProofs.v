(** Proofs about masking saturated absorption. *)
From Coq Require Import ZArith List Reals Lra Lia Arith Bool.
From Verif Require Import IndexModel IndexProofs AbsorptionSpec FilterModel FilterSpec.
Import ListNotations.
Local Open Scope R_scope.

Lemma update_nth_nth0 : forall (l : list R) k v j, (k < length l)%nat ->
  nth j (update_nth k (fun _ => v) l) 0 = if Nat.eqb j k then v else nth j l 0.
Proof.
  induction l as [|x l IH]; intros k v j Hk; [cbn in Hk; lia|]. destruct k as [|k], j as [|j]; cbn [update_nth nth Nat.eqb]; auto.
  apply IH. cbn in Hk. lia.
Qed.

(** ** Maximum *)

Lemma argmax_from_spec : forall l i best v b w, argmax_from l i best v = (b, w) ->
  v <= w /\ (forall x, In x l -> x <= w) /\
  ((b = best /\ w = v) \/ exists j, (j < length l)%nat /\ b = (i + j)%nat /\ nth j l 0 = w).
Proof.
  induction l as [|x l IH]; intros i best v b w H; cbn [argmax_from] in H.
  - injection H as <- <-. split; [lra|]. split; [intros y []|]. left. split; reflexivity.
  - destruct (Rlt_dec v x) as [Hlt|Hlt]; apply IH in H; destruct H as (H1 & H2 & H3).
    + split; [lra|]. split; [intros y [<-|Hy]; auto|]. right. destruct H3 as [(-> & ->)|(j & Hj & -> & E)].
      * exists O. cbn. split; [lia|]. split; [lia|reflexivity].
      * exists (S j). cbn. split; [lia|]. split; [lia|assumption].
    + split; [lra|]. split; [intros y [<-|Hy]; [lra|auto]|]. destruct H3 as [(-> & ->)|(j & Hj & -> & E)].
      * left. split; reflexivity.
      * right. exists (S j). cbn. split; [lia|]. split; [lia|assumption].
Qed.

Lemma argmax_spec : forall l b w, argmax l = Some (b, w) ->
  (b < length l)%nat /\ nth b l 0 = w /\ forall x, In x l -> x <= w.
Proof.
  intros [|x l] b w H; [discriminate|]. cbn [argmax] in H. injection H as H. apply argmax_from_spec in H.
  destruct H as (H1 & H2 & [(-> & ->)|(j & Hj & -> & E)]); cbn [length].
  - split; [lia|]. split; [reflexivity|]. intros y [<-|Hy]; [lra|auto].
  - split; [lia|]. split; [exact E|]. intros y [<-|Hy]; [lra|auto].
Qed.

Lemma argmax_some : forall l, l <> [] -> exists b w, argmax l = Some (b, w).
Proof.
  intros [|x l] H; [congruence|]. cbn [argmax]. destruct (argmax_from l 1 0 x) as (b & w). exists b, w. reflexivity.
Qed.

(** ** Pixels *)

Lemma pixel_mod : forall l z, pixel l (z mod Z.of_nat (length l)) = pixel l z.
Proof.
  intros l z. unfold pixel. destruct (Nat.eq_dec (length l) 0) as [E|E].
  - rewrite E. cbn. rewrite !Zmod_0_r. destruct l; [|discriminate]. destruct (Z.to_nat z); reflexivity.
  - rewrite Zmod_mod. reflexivity.
Qed.

Lemma pixel_nat : forall l k, (k < length l)%nat -> pixel l (Z.of_nat k) = nth k l 0.
Proof. intros l k Hk. unfold pixel. rewrite Z.mod_small by lia. rewrite Nat2Z.id. reflexivity. Qed.

Lemma pixel_update : forall l k v z, (k < length l)%nat ->
  pixel (update_nth k (fun _ => v) l) z = if (z mod Z.of_nat (length l) =? Z.of_nat k)%Z then v else pixel l z.
Proof.
  intros l k v z Hk. unfold pixel. rewrite update_nth_length, update_nth_nth0 by assumption.
  pose proof (Z.mod_pos_bound z (Z.of_nat (length l)) ltac:(lia)).
  destruct (Nat.eqb_spec (Z.to_nat (z mod Z.of_nat (length l))) k); destruct (Z.eqb_spec (z mod Z.of_nat (length l)) (Z.of_nat k)); try lia; reflexivity.
Qed.

Lemma pixel_congr : forall l a b, (a mod Z.of_nat (length l) = b mod Z.of_nat (length l))%Z -> pixel l a = pixel l b.
Proof. intros l a b H. rewrite <- (pixel_mod l a), <- (pixel_mod l b), H. reflexivity. Qed.

Section Loops.
Variables (newthresh taueff : R) (orig : list R).
Hypothesis Hgap : taueff < newthresh.
Let n := Z.of_nat (length orig).

(** The spectrum is the original one, apart from the set S of replaced pixels. *)
Definition state_of (S : Z -> bool) (l : list R) : Prop :=
  length l = length orig /\ (forall z, S (z mod n)%Z = S z) /\
  forall z, pixel l z = if S z then taueff else pixel orig z.

Definition mark (S : Z -> bool) (p : Z) : Z -> bool := fun z => S z || (z mod n =? p mod n)%Z.

Lemma mark_state : forall S l k, (0 < n)%Z -> state_of S l -> (k < length orig)%nat ->
  state_of (mark S (Z.of_nat k)) (update_nth k (fun _ => taueff) l).
Proof.
  intros S l k Hn (L & P & H) Hk. split; [rewrite update_nth_length; assumption|]. split.
  - intros z. unfold mark. rewrite P, Zmod_mod. reflexivity.
  - intros z. rewrite pixel_update by lia. rewrite L. fold n. unfold mark.
    rewrite (Z.mod_small (Z.of_nat k) n) by (unfold n; lia).
    destruct (z mod n =? Z.of_nat k)%Z; [rewrite orb_true_r; reflexivity|]. rewrite orb_false_r. apply H.
Qed.

Lemma congr_sub : forall a b c, (a mod n = b mod n)%Z -> ((a - c) mod n = (b - c) mod n)%Z.
Proof. intros a b c H. rewrite Zminus_mod, H, <- Zminus_mod. reflexivity. Qed.

Lemma state_mod : forall S l a b, state_of S l -> (a mod n = b mod n)%Z -> S a = S b.
Proof. intros S l a b (_ & P & _) H. rewrite <- (P a), <- (P b), H. reflexivity. Qed.

Lemma down_spec : forall k l S K i, (0 < n)%Z -> state_of S l -> (Z.of_nat k = K - i)%Z -> (n <= K)%Z -> (0 <= i <= n)%Z ->
  (forall e, 0 <= e < i -> S (K - e)%Z = true)%Z ->
  exists l' S' j, down newthresh taueff k l = Some l' /\ state_of S' l' /\ (i <= j <= n)%Z /\
    (forall z, S z = true -> S' z = true) /\
    (forall z, S' z = true -> S z = true \/ exists e, (i <= e < j)%Z /\ (z mod n = (K - e) mod n)%Z) /\
    (forall e, (i <= e < j)%Z -> S' (K - e)%Z = true /\ newthresh < pixel orig (K - e)) /\
    pixel l' (K - j) <= newthresh.
Proof.
  induction k as [|k IH]; intros l S K i Hn St Hk HK Hi Hm.
  all: assert (E0 : nth (Z.to_nat ((K - i) mod n)) l 0 = pixel l (K - i)) by
         (destruct St as (L & _); unfold pixel; rewrite L; reflexivity).
  all: assert (Ek : forall q, Z.of_nat q = (K - i)%Z -> (q mod length l)%nat = Z.to_nat ((K - i) mod n))
         by (intros q Hq; destruct St as (L & _); rewrite L, <- Hq; unfold n; rewrite <- Nat2Z.inj_mod by lia; rewrite Nat2Z.id; reflexivity).
  all: cbn [down]; rewrite (Ek _ Hk), E0; destruct (Rlt_dec newthresh (pixel l (K - i))) as [Hlt|Hlt].
  all: try (exists l, S, i; split; [reflexivity|]; split; [assumption|]; split; [lia|]; split; [auto|];
            split; [auto|]; split; [intros; lia|lra]).
  - exfalso. assert (i = K) by lia. subst i. assert (HKn : K = n) by lia. 
    assert (HS : S (K - K)%Z = true).
    { destruct St as (L & P & H). rewrite <- (state_mod S l (K - 0) (K - K)); [apply Hm; lia|repeat split; assumption|].
      rewrite HKn. rewrite Z.sub_0_r, Z.sub_diag, Z_mod_same_full, Zmod_0_l. reflexivity. }
    destruct St as (L & P & H). rewrite H, HS in Hlt. lra.
  - assert (Hnot : S (K - i)%Z = false).
    { destruct (S (K - i)%Z) eqn:E; [|reflexivity]. destruct St as (L & P & H). rewrite H, E in Hlt. lra. }
    assert (Hin : (i < n)%Z).
    { destruct (Z.eq_dec i n) as [->|Hne]; [|lia]. exfalso. assert (S (K - 0)%Z = true) by (apply Hm; lia).
      rewrite (state_mod S l (K - 0) (K - n)) in H; [congruence|assumption|].
      rewrite Z.sub_0_r. rewrite <- (Z.mod_add (K - n) 1 n) by lia. f_equal. lia. }
    pose proof (Z.mod_pos_bound (K - i) n Hn) as B.
    set (p := Z.to_nat ((K - i) mod n)).
    assert (Hp : (p < length orig)%nat) by (unfold p, n in *; lia).
    assert (Hpz : Z.of_nat p = ((K - i) mod n)%Z) by (unfold p; lia).
    pose proof (mark_state S l p Hn St Hp) as St'.
    assert (Mk : forall z, mark S (Z.of_nat p) z = true <-> S z = true \/ (z mod n = (K - i) mod n)%Z).
    { intros z. unfold mark. rewrite Hpz, Zmod_mod, orb_true_iff, Z.eqb_eq. reflexivity. }
    destruct (IH (update_nth p (fun _ => taueff) l) (mark S (Z.of_nat p)) K (i + 1)%Z) as (l' & S' & j & E & St2 & Hj & H1 & H2 & H3 & H4);
      try assumption; try lia.
    { intros e He. apply Mk. destruct (Z.eq_dec e i) as [->|Hne]; [right; reflexivity|left; apply Hm; lia]. }
    exists l', S', j. split; [exact E|]. split; [assumption|]. split; [lia|].
    split; [intros z Hz; apply H1, Mk; left; assumption|].
    split.
    { intros z Hz. destruct (H2 z Hz) as [Hz'|(e & He & Ez)].
      - apply Mk in Hz'. destruct Hz' as [|Ez]; [left; assumption|right; exists i; split; [lia|assumption]].
      - right. exists e. split; [lia|assumption]. }
    split; [|assumption].
    intros e He. destruct (Z.eq_dec e i) as [->|Hne]; [|apply H3; lia].
    split; [apply H1, Mk; right; reflexivity|]. destruct St as (L & P & H). rewrite H, Hnot in Hlt. assumption.
Qed.

Lemma wrap_mod : forall i, (i < length orig)%nat ->
  (Z.of_nat (wrap (length orig) (i + 1)) = (Z.of_nat i + 1) mod n)%Z /\ (wrap (length orig) (i + 1) < length orig)%nat.
Proof.
  intros i Hi. unfold wrap. destruct (Nat.leb_spec (length orig) (i + 1)).
  - assert (Z.of_nat i + 1 = n)%Z by (unfold n; lia). rewrite H0, Z_mod_same_full. split; lia.
  - rewrite Z.mod_small by (unfold n; lia). split; lia.
Qed.

Lemma up_spec : forall fuel p l S K i, (0 < n)%Z -> state_of S l -> (p < length orig)%nat ->
  (Z.of_nat p = (K + i) mod n)%Z -> (0 <= i <= n)%Z -> (n <= i + Z.of_nat fuel)%Z ->
  (forall e, 0 <= e < i -> S (K + e)%Z = true)%Z ->
  exists l' S' j, up newthresh taueff fuel p l = Some l' /\ state_of S' l' /\ (i <= j <= n)%Z /\
    (forall z, S z = true -> S' z = true) /\
    (forall z, S' z = true -> S z = true \/ exists e, (i <= e < j)%Z /\ (z mod n = (K + e) mod n)%Z) /\
    (forall e, (i <= e < j)%Z -> S' (K + e)%Z = true /\ newthresh < pixel orig (K + e)) /\
    pixel l' (K + j) <= newthresh.
Proof.
  induction fuel as [|fuel IH]; intros p l S K i Hn St Hp Hpz Hi Hf Hm.
  all: assert (E0 : nth p l 0 = pixel l (K + i)) by
         (destruct St as (L & _); rewrite <- pixel_nat by lia; rewrite Hpz; unfold n; rewrite <- L; apply pixel_mod).
  all: cbn [up]; rewrite E0; destruct (Rlt_dec newthresh (pixel l (K + i))) as [Hlt|Hlt].
  all: try (exists l, S, i; split; [reflexivity|]; split; [assumption|]; split; [lia|]; split; [auto|];
            split; [auto|]; split; [intros; lia|lra]).
  all: assert (Hnot : S (K + i)%Z = false) by
    (destruct (S (K + i)%Z) eqn:E; [|reflexivity]; destruct St as (L & P & H); rewrite H, E in Hlt; lra).
  all: assert (Hin : (i < n)%Z) by
    (destruct (Z.eq_dec i n) as [->|Hne]; [|lia]; exfalso; assert (Hs : S (K + 0)%Z = true) by (apply Hm; lia);
      rewrite (state_mod S l (K + 0) (K + n)) in Hs; [congruence|assumption|];
      rewrite Z.add_0_r; rewrite <- (Z.mod_add K 1 n) by lia; f_equal; lia).
  - lia.
  - pose proof (mark_state S l p Hn St Hp) as St'.
    assert (Mk : forall z, mark S (Z.of_nat p) z = true <-> S z = true \/ (z mod n = (K + i) mod n)%Z).
    { intros z. unfold mark. rewrite Hpz, Zmod_mod, orb_true_iff, Z.eqb_eq. reflexivity. }
    destruct (wrap_mod p Hp) as (W1 & W2). rewrite (proj1 St).
    destruct (IH (wrap (length orig) (p + 1)) (update_nth p (fun _ => taueff) l) (mark S (Z.of_nat p)) K (i + 1)%Z)
      as (l' & S' & j & E & St2 & Hj & H1 & H2 & H3 & H4); try assumption; try lia.
    { rewrite W1, Hpz, Zplus_mod_idemp_l. f_equal. lia. }
    { intros e He. apply Mk. destruct (Z.eq_dec e i) as [->|Hne]; [right; reflexivity|left; apply Hm; lia]. }
    exists l', S', j. split; [exact E|]. split; [assumption|]. split; [lia|].
    split; [intros z Hz; apply H1, Mk; left; assumption|].
    split.
    { intros z Hz. destruct (H2 z Hz) as [Hz'|(e & He & Ez)].
      - apply Mk in Hz'. destruct Hz' as [|Ez]; [left; assumption|right; exists i; split; [lia|assumption]].
      - right. exists e. split; [lia|assumption]. }
    split; [|assumption].
    intros e He. destruct (Z.eq_dec e i) as [->|Hne]; [|apply H3; lia].
    split; [apply H1, Mk; right; reflexivity|]. destruct St as (L & P & H). rewrite H, Hnot in Hlt. assumption.
Qed.

(** One pass: both loops from the maximum. *)
Definition closed (S : Z -> bool) : Prop :=
  forall z d, S z = true -> (d = 1 \/ d = -1)%Z -> newthresh < pixel orig (z + d) -> S (z + d)%Z = true.

Lemma pass_spec : forall S l maxx, (0 < n)%Z -> state_of S l -> (maxx < length orig)%nat ->
  exists l1 l2 S2, down newthresh taueff (maxx + length l) l = Some l1 /\
    up newthresh taueff (length l1) (wrap (length l1) (maxx + 1)) l1 = Some l2 /\ length l1 = length l /\
    state_of S2 l2 /\ (forall z, S z = true -> S2 z = true) /\
    (forall z, S2 z = true -> S z = true \/
       exists d, (z mod n = (Z.of_nat maxx + d) mod n)%Z /\ 
         (forall e, (0 <= e <= d \/ d <= e <= 0)%Z -> newthresh < pixel orig (Z.of_nat maxx + e) \/ newthresh >= pixel l (Z.of_nat maxx)) /\
         newthresh < pixel orig z) /\
    (newthresh < pixel l (Z.of_nat maxx) -> S2 (Z.of_nat maxx) = true /\ (closed S -> closed S2)).
Proof.
  intros S l maxx Hn St Hmx.
  assert (L : length l = length orig) by apply St.
  destruct (down_spec (maxx + length l) l S (Z.of_nat maxx + n)%Z 0%Z) as (l1 & S1 & j1 & E1 & St1 & Hj1 & A1 & B1 & C1 & D1);
    try assumption; try (unfold n in *; lia).
  assert (L1 : length l1 = length orig) by apply St1.
  destruct (wrap_mod maxx Hmx) as (W1 & W2).
  destruct (up_spec (length l1) (wrap (length l1) (maxx + 1)) l1 S1 (Z.of_nat maxx + 1)%Z 0%Z)
    as (l2 & S2 & j2 & E2 & St2 & Hj2 & A2 & B2 & C2 & D2); try assumption; try (rewrite L1; assumption).
  { rewrite L1, W1, Z.add_0_r. reflexivity. } { lia. } { unfold n in *; lia. } { intros; lia. }
  assert (Kmod : forall e, ((Z.of_nat maxx + n - e) mod n = (Z.of_nat maxx - e) mod n)%Z).
  { intros e. replace (Z.of_nat maxx + n - e)%Z with (Z.of_nat maxx - e + 1 * n)%Z by lia. apply Z.mod_add. lia. }
  assert (Kpix : forall e, pixel orig (Z.of_nat maxx + n - e) = pixel orig (Z.of_nat maxx - e)) by (intros; apply pixel_congr, Kmod).
  exists l1, l2, S2. split; [assumption|]. split; [assumption|]. split; [congruence|]. split; [assumption|]. split; [auto|].
  assert (C1' : forall e, (0 <= e < j1)%Z -> S1 (Z.of_nat maxx - e)%Z = true /\ newthresh < pixel orig (Z.of_nat maxx - e)).
  { intros e He. destruct (C1 e He) as (Hs & Hl). rewrite Kpix in Hl. split; [|assumption].
    rewrite <- Hs. apply (state_mod S1 l1); [assumption|]. symmetry. apply Kmod. }
  assert (Zero : (0 < j1)%Z \/ newthresh >= pixel l (Z.of_nat maxx)).
  { destruct (Z.eq_dec j1 0) as [->|Hne]; [|left; lia]. right.
    destruct (S1 (Z.of_nat maxx)) eqn:Es.
    - destruct (B1 _ Es) as [Hs|(e & He & _)]; [|lia]. destruct St as (_ & _ & H). rewrite H, Hs. lra.
    - replace (pixel l1 (Z.of_nat maxx + n - 0)) with (pixel l1 (Z.of_nat maxx)) in D1.
      2: { apply pixel_congr. rewrite L1. fold n. specialize (Kmod 0%Z). rewrite Kmod. f_equal. lia. }
      destruct St1 as (_ & _ & H1'). rewrite H1', Es in D1. destruct St as (_ & _ & H). rewrite H. destruct (S (Z.of_nat maxx)); lra. }
  split.
  { intros z Hz. destruct (B2 z Hz) as [Hz1|(e & He & Ez)].
    - destruct (B1 z Hz1) as [|(e & He & Ez)]; [left; assumption|]. right. exists (- e)%Z.
      rewrite Kmod in Ez. replace (Z.of_nat maxx + - e)%Z with (Z.of_nat maxx - e)%Z by lia. split; [assumption|].
      split.
      + intros e' He'. left. replace (Z.of_nat maxx + e')%Z with (Z.of_nat maxx - (- e'))%Z by lia. apply C1'. lia.
      + rewrite (pixel_congr orig z (Z.of_nat maxx - e)) by assumption. apply C1'. assumption.
    - right. exists (1 + e)%Z. replace (Z.of_nat maxx + (1 + e))%Z with (Z.of_nat maxx + 1 + e)%Z by lia. split; [assumption|]. split.
      + intros e' He'. destruct (Z.eq_dec e' 0) as [->|Hne].
        * destruct Zero as [Z0|Z0]; [left|right; assumption]. rewrite Z.add_0_r.
          replace (Z.of_nat maxx) with (Z.of_nat maxx - 0)%Z by lia. apply C1'. lia.
        * left. replace (Z.of_nat maxx + e')%Z with (Z.of_nat maxx + 1 + (e' - 1))%Z by lia. apply C2. lia.
      + rewrite (pixel_congr orig z (Z.of_nat maxx + 1 + e)) by assumption. apply C2. assumption. }
  intros Hmax. destruct Zero as [Hj|]; [|lra].
  assert (Sm : S1 (Z.of_nat maxx) = true) by (replace (Z.of_nat maxx) with (Z.of_nat maxx - 0)%Z by lia; apply C1'; lia).
  split; [auto|]. intros Cl z d Hz Hd Hpix.
  assert (Trans : forall a b, (a mod n = b mod n)%Z -> S2 (b + d)%Z = true -> S2 (a + d)%Z = true).
  { intros a b E Hb. rewrite <- Hb. apply (state_mod S2 l2); [assumption|]. rewrite Zplus_mod, E, <- Zplus_mod. reflexivity. }
  assert (Pix : forall a b, (a mod n = b mod n)%Z -> pixel orig (a + d) = pixel orig (b + d)).
  { intros a b E. apply pixel_congr. fold n. rewrite Zplus_mod, E, <- Zplus_mod. reflexivity. }
  assert (EndL : forall z', newthresh < pixel orig z' -> (z' mod n = (Z.of_nat maxx - j1) mod n)%Z -> S2 z' = true).
  { intros z' Hp Ez. apply A2. destruct (S1 z') eqn:Es; [reflexivity|]. exfalso.
    assert (Q : pixel l1 (Z.of_nat maxx + n - j1) = pixel l1 z').
    { apply pixel_congr. rewrite L1. fold n. rewrite Kmod. symmetry. assumption. }
    rewrite Q in D1. destruct St1 as (_ & _ & H1'). rewrite H1', Es in D1. lra. }
  assert (EndR : forall z', newthresh < pixel orig z' -> (z' mod n = (Z.of_nat maxx + 1 + j2) mod n)%Z -> S2 z' = true).
  { intros z' Hp Ez. destruct (S2 z') eqn:Es; [reflexivity|]. exfalso.
    assert (Q : pixel l2 (Z.of_nat maxx + 1 + j2) = pixel l2 z').
    { apply pixel_congr. rewrite (proj1 St2). fold n. symmetry. assumption. }
    rewrite Q in D2. destruct St2 as (_ & _ & H2'). rewrite H2', Es in D2. lra. }
  destruct (B2 z Hz) as [Hz1|(e & He & Ez)].
  - destruct (B1 z Hz1) as [Hz0|(e & He & Ez)].
    + apply A2, A1. apply Cl; assumption.
    + rewrite Kmod in Ez. rewrite (Pix _ _ Ez) in Hpix. apply (Trans _ _ Ez). destruct Hd as [->| ->].
      * destruct (Z.eq_dec e 0) as [->|Hne].
        -- replace (Z.of_nat maxx - 0 + 1)%Z with (Z.of_nat maxx + 1)%Z in * by lia.
           destruct (Z.eq_dec j2 0) as [Ej|Hne']; [apply EndR; [assumption|rewrite Ej; f_equal; lia]|].
           replace (Z.of_nat maxx + 1)%Z with (Z.of_nat maxx + 1 + 0)%Z by lia. apply C2. lia.
        -- apply A2. replace (Z.of_nat maxx - e + 1)%Z with (Z.of_nat maxx - (e - 1))%Z by lia. apply C1'. lia.
      * replace (Z.of_nat maxx - e + -1)%Z with (Z.of_nat maxx - (e + 1))%Z in * by lia.
        destruct (Z.eq_dec (e + 1) j1) as [Ej|Hne']; [apply EndL; [assumption|rewrite Ej; reflexivity]|].
        apply A2, C1'. lia.
  - rewrite (Pix _ _ Ez) in Hpix. apply (Trans _ _ Ez). destruct Hd as [->| ->].
    + replace (Z.of_nat maxx + 1 + e + 1)%Z with (Z.of_nat maxx + 1 + (e + 1))%Z in * by lia.
      destruct (Z.eq_dec (e + 1) j2) as [Ej|Hne']; [apply EndR; [assumption|rewrite Ej; reflexivity]|].
      apply C2. lia.
    + destruct (Z.eq_dec e 0) as [->|Hne].
      * replace (Z.of_nat maxx + 1 + 0 + -1)%Z with (Z.of_nat maxx) by lia. auto.
      * replace (Z.of_nat maxx + 1 + e + -1)%Z with (Z.of_nat maxx + 1 + (e - 1))%Z by lia. apply C2. lia.
Qed.

End Loops.

(** ** The outer loop *)

Definition above (t : R) (l : list R) : nat := length (filter (fun x => if Rlt_dec t x then true else false) l).

Lemma above_le : forall t a b, length a = length b ->
  (forall k, (k < length a)%nat -> t < nth k b 0 -> t < nth k a 0) -> (above t b <= above t a)%nat.
Proof.
  unfold above. induction a as [|x a IH]; intros [|y b] L H; try discriminate; [auto|]. cbn [filter].
  assert (IH' : (length (filter (fun x => if Rlt_dec t x then true else false) b) <= length (filter (fun x => if Rlt_dec t x then true else false) a))%nat).
  { apply IH; [cbn in L; lia|]. intros k Hk. apply (H (S k)). cbn. lia. }
  pose proof (H O ltac:(cbn; lia)) as H0. cbn [nth] in H0. destruct (Rlt_dec t y), (Rlt_dec t x); cbn [length]; try lia.
  exfalso. auto.
Qed.

Lemma above_lt : forall t a b m, length a = length b -> (m < length a)%nat -> t < nth m a 0 -> nth m b 0 <= t ->
  (forall k, (k < length a)%nat -> t < nth k b 0 -> t < nth k a 0) -> (above t b < above t a)%nat.
Proof.
  intros t. induction a as [|x a IH]; intros [|y b] m L Hm Ha Hb H; try discriminate; [cbn in Hm; lia|].
  assert (Ht : forall k, (k < length a)%nat -> t < nth k b 0 -> t < nth k a 0) by (intros k Hk; apply (H (S k)); cbn; lia).
  assert (L' : length a = length b) by (cbn in L; lia).
  pose proof (H O ltac:(cbn; lia)) as H0. cbn [nth] in H0.
  unfold above. cbn [filter]. destruct m as [|m].
  - cbn [nth] in Ha, Hb. pose proof (above_le t a b L' Ht) as Hle. unfold above in Hle.
    destruct (Rlt_dec t y), (Rlt_dec t x); cbn [length]; try lra; lia.
  - cbn [nth] in Ha, Hb. pose proof (IH b m L' ltac:(cbn in Hm; lia) Ha Hb Ht) as Hlt. unfold above in Hlt.
    destruct (Rlt_dec t y), (Rlt_dec t x); cbn [length]; try lia. exfalso; auto.
Qed.

Lemma above_length : forall t l, (above t l <= length l)%nat.
Proof.
  intros t. unfold above. induction l as [|x l IH]; cbn [filter length]; [lia|]. destruct (Rlt_dec t x); cbn [length]; lia.
Qed.

Lemma near_congr : forall high low l a b, (a mod Z.of_nat (length l) = b mod Z.of_nat (length l))%Z ->
  near_saturated high low l a -> near_saturated high low l b.
Proof.
  intros high low l a b E (d & H1 & H2). exists d.
  assert (P : forall e, pixel l (b + e) = pixel l (a + e)).
  { intros e. apply pixel_congr. rewrite Zplus_mod, <- E, <- Zplus_mod. reflexivity. }
  rewrite P. split; [assumption|]. intros e He. rewrite P. auto.
Qed.

Lemma filter_single_spec : forall fuel taueff thresh orig S l, orig <> [] -> taueff + 1 / 4 <= thresh ->
  state_of taueff orig S l -> closed (taueff + 1 / 4) orig S ->
  (forall z, S z = true -> near_saturated thresh (taueff + 1 / 4) orig z) ->
  (above thresh l <= fuel)%nat ->
  exists out S', filter_single fuel taueff thresh l = Done out /\ state_of taueff orig S' out /\
    closed (taueff + 1 / 4) orig S' /\ (forall z, S' z = true -> near_saturated thresh (taueff + 1 / 4) orig z) /\
    forall x, In x out -> x <= thresh.
Proof.
  intros fuel taueff thresh orig. set (nt := taueff + 1 / 4).
  induction fuel as [|fuel IH]; intros S l Hne Hth St Cl Hns Hf.
  all: assert (L : length l = length orig) by apply St.
  all: assert (Hlen : (0 < length orig)%nat) by (destruct orig; [congruence|cbn; lia]).
  all: assert (Hl : l <> []) by (intros ->; cbn in L; lia).
  all: destruct (argmax_some l Hl) as (maxx & v & Em); pose proof (argmax_spec _ _ _ Em) as (A1 & A2 & A3).
  all: cbn [filter_single]; rewrite Em; destruct (Rlt_dec thresh v) as [Hlt|Hlt].
  all: try (exists l, S; split; [reflexivity|]; split; [assumption|]; split; [assumption|]; split; [assumption|];
            intros x Hx; specialize (A3 x Hx); lra).
  - exfalso. assert (above thresh [] < above thresh l)%nat; [|unfold above in *; cbn in *; lia].
    apply Nat.lt_le_trans with 1%nat; [cbn; lia|]. clear - A1 A2 Hlt. revert maxx A1 A2. unfold above. induction l as [|x l IH]; intros maxx A1 A2; [cbn in A1; lia|].
    cbn [filter]. destruct (Rlt_dec thresh x); [cbn [length]; lia|]. destruct maxx as [|m]; [cbn in A2; lra|].
    apply (IH m); [cbn in A1; lia|exact A2].
  - assert (Hgap : taueff < nt) by (unfold nt; lra).
    destruct (pass_spec nt taueff orig Hgap S l maxx) as (l1 & l2 & S2 & E1 & E2 & L1 & St2 & Sub & New & Mx); try assumption; try lia.
    fold nt. rewrite E1. rewrite L1 in E2. rewrite E2.
    assert (Pm : pixel l (Z.of_nat maxx) = v) by (rewrite pixel_nat by lia; assumption).
    destruct Mx as (Mm & Cl2); [rewrite Pm; fold nt in Hth; lra|].
    assert (Om : pixel orig (Z.of_nat maxx) = v).
    { destruct St as (_ & _ & H). rewrite <- Pm, H. destruct (S (Z.of_nat maxx)) eqn:Es; [|reflexivity].
      rewrite H, Es in Pm. fold nt in Hth. lra. }
    apply (IH S2 l2); try assumption; try (apply Cl2; assumption).
    + intros z Hz. destruct (New z Hz) as [Hz0|(d & Ez & Hall & Hz0)]; [auto|].
      apply (near_congr thresh nt orig (Z.of_nat maxx + d) z); [symmetry; assumption|].
      exists (- d)%Z. replace (Z.of_nat maxx + d + - d)%Z with (Z.of_nat maxx) by lia. split; [rewrite Om; assumption|].
      intros e He. replace (Z.of_nat maxx + d + e)%Z with (Z.of_nat maxx + (d + e))%Z by lia.
      destruct (Hall (d + e)%Z ltac:(lia)) as [|Hbad]; [assumption|]. rewrite Pm in Hbad. fold nt in Hth. lra.
    + apply Nat.lt_succ_r. apply Nat.lt_le_trans with (above thresh l); [|assumption].
      destruct St as (_ & _ & Hp). destruct St2 as (L2 & _ & Hp2).
      apply (above_lt thresh l l2 maxx); [lia|lia|lra| |].
      * rewrite <- pixel_nat by lia. rewrite Hp2, Mm. fold nt in Hth. lra.
      * intros k Hk Hgt. rewrite <- pixel_nat in Hgt |- * by lia. rewrite Hp2 in Hgt. rewrite Hp.
        destruct (S2 (Z.of_nat k)) eqn:Es; [fold nt in Hth; lra|].
        destruct (S (Z.of_nat k)) eqn:Es0; [rewrite (Sub _ Es0) in Es; discriminate|]. assumption.
Qed.

Lemma start_state : forall taueff l, state_of taueff l (fun _ => false) l.
Proof. intros. split; [reflexivity|]. split; reflexivity. Qed.

Lemma closed_walk : forall newthresh orig S z k, closed newthresh orig S ->
  (forall m, S (z + Z.of_nat k * m)%Z = true -> (m = 1 \/ m = -1)%Z ->
    (forall e, (0 <= e <= Z.of_nat k)%Z -> newthresh < pixel orig (z + e * m)) -> S z = true).
Proof.
  intros newthresh orig S z. induction k as [|k IH]; intros Cl m Hs Hm He.
  - rewrite Z.mul_0_l, Z.add_0_r in Hs. assumption.
  - apply (IH Cl m); [|assumption|].
    + replace (z + Z.of_nat k * m)%Z with (z + Z.of_nat (Datatypes.S k) * m + - m)%Z by lia. apply Cl; [assumption|lia|].
      replace (z + Z.of_nat (Datatypes.S k) * m + - m)%Z with (z + Z.of_nat k * m)%Z by lia. apply He. lia.
    + intros e H. apply He. lia.
Qed.

Lemma C25_exact_aux : forall taueff thresh l fuel, l <> [] -> taueff + 1 / 4 <= thresh -> (length l <= fuel)%nat ->
  exists out, filter_single fuel taueff thresh l = Done out /\
    masked thresh (taueff + 1 / 4) taueff l out /\ forall x, In x out -> x <= thresh.
Proof.
  intros taueff thresh l fuel Hl Hth Hf.
  destruct (filter_single_spec fuel taueff thresh l (fun _ => false) l) as (out & S & E & St & Cl & Hns & Hle); try assumption.
  - apply start_state.
  - intros z d H. discriminate.
  - intros z H. discriminate.
  - pose proof (above_length thresh l). lia.
  - exists out. split; [assumption|]. split; [|assumption]. destruct St as (L & P & H). split; [assumption|]. intros z. split.
    + intros (d & Hd & He). rewrite H.
      assert (Sd : S (z + d)%Z = true).
      { destruct (S (z + d)%Z) eqn:Es; [reflexivity|]. exfalso. pose proof (H (z + d)%Z) as Hz. rewrite Es in Hz.
        assert (In (pixel out (z + d)) out).
        { unfold pixel. apply nth_In. rewrite L.
          assert (0 < length l)%nat by (destruct l; [congruence|cbn; lia]).
          pose proof (Z.mod_pos_bound (z + d) (Z.of_nat (length l)) ltac:(lia)). lia. }
        specialize (Hle _ H0). lra. }
      assert (Sz : S z = true); [|rewrite Sz; reflexivity].
      destruct (Z_le_dec 0 d).
      * apply (closed_walk (taueff + 1 / 4) l S z (Z.to_nat d) Cl 1); [rewrite Z2Nat.id by assumption; rewrite Z.mul_1_r; assumption|left; reflexivity|].
        intros e Hee. rewrite Z.mul_1_r. apply He. lia.
      * apply (closed_walk (taueff + 1 / 4) l S z (Z.to_nat (- d)) Cl (-1)).
        -- rewrite Z2Nat.id by lia. replace (z + - d * -1)%Z with (z + d)%Z by lia. assumption.
        -- right. reflexivity.
        -- intros e Hee. replace (z + e * -1)%Z with (z + - e)%Z by lia. apply He. lia.
    + intros Hno. rewrite H. destruct (S z) eqn:Es; [|reflexivity]. exfalso. apply Hno. auto.
Qed.

(** ** Divergence *)

Lemma C25_diverges_aux : forall fuel taueff thresh l x, In x l -> thresh < x <= taueff + 1 / 4 ->
  filter_single fuel taueff thresh l = Running.
Proof.
  induction fuel as [|fuel IH]; intros taueff thresh l x Hin Hx.
  all: assert (Hl : l <> []) by (intros ->; contradiction).
  all: assert (Hlen : (0 < length l)%nat) by (destruct l; [congruence|cbn; lia]).
  all: destruct (argmax_some l Hl) as (maxx & v & Em); pose proof (argmax_spec _ _ _ Em) as (A1 & A2 & A3).
  all: cbn [filter_single]; rewrite Em; pose proof (A3 x Hin) as Hv; destruct (Rlt_dec thresh v) as [Hlt|Hlt]; [|lra].
  - reflexivity.
  - assert (Hgap : taueff < taueff + 1 / 4) by lra.
    destruct (pass_spec (taueff + 1 / 4) taueff l Hgap (fun _ => false) l maxx) as (l1 & l2 & S2 & E1 & E2 & L1 & St2 & Sub & New & Mx);
      [lia|apply start_state|assumption|].
    rewrite E1. rewrite L1 in E2. rewrite E2. apply (IH taueff thresh l2 x); [|assumption].
    apply In_nth with (d := 0) in Hin. destruct Hin as (k & Hk & Ek). destruct St2 as (L2 & _ & Hp).
    assert (Pk : pixel l2 (Z.of_nat k) = x).
    { rewrite Hp. destruct (S2 (Z.of_nat k)) eqn:Es; [|rewrite pixel_nat by assumption; assumption].
      destruct (New _ Es) as [|(d & _ & _ & Hbad)]; [discriminate|]. rewrite pixel_nat in Hbad by assumption. lra. }
    rewrite <- Pk. rewrite pixel_nat by lia. apply nth_In. lia.
Qed.

Lemma C25_diverges_high_aux : forall fuel taueff thresh l x, In x l -> thresh < x -> thresh < taueff ->
  filter_single fuel taueff thresh l = Running.
Proof.
  intros [|fuel] taueff thresh l x Hin Hx Ht.
  all: assert (Hl : l <> []) by (intros ->; contradiction).
  all: assert (Hlen : (0 < length l)%nat) by (destruct l; [congruence|cbn; lia]).
  all: destruct (argmax_some l Hl) as (maxx & v & Em); pose proof (argmax_spec _ _ _ Em) as (A1 & A2 & A3).
  - cbn [filter_single]; rewrite Em; pose proof (A3 x Hin) as Hv; destruct (Rlt_dec thresh v) as [Hlt|Hlt]; [|lra]. reflexivity.
  - destruct (Rlt_dec (taueff + 1 / 4) v) as [Hbig|Hsmall].
    2: { apply (C25_diverges_aux _ _ _ _ v); [rewrite <- A2; apply nth_In; assumption|]. specialize (A3 x Hin). lra. }
    cbn [filter_single]; rewrite Em; pose proof (A3 x Hin) as Hv; destruct (Rlt_dec thresh v) as [Hlt|Hlt]; [|lra].
    assert (Hgap : taueff < taueff + 1 / 4) by lra.
    destruct (pass_spec (taueff + 1 / 4) taueff l Hgap (fun _ => false) l maxx) as (l1 & l2 & S2 & E1 & E2 & L1 & St2 & Sub & New & Mx);
      [lia|apply start_state|assumption|].
    rewrite E1. rewrite L1 in E2. rewrite E2. apply (C25_diverges_aux fuel taueff thresh l2 taueff); [|lra].
    destruct Mx as (Mm & _); [rewrite pixel_nat by assumption; lra|]. destruct St2 as (L2 & _ & Hp).
    specialize (Hp (Z.of_nat maxx)). rewrite Mm in Hp. rewrite <- Hp. rewrite pixel_nat by lia. apply nth_In. lia.
Qed.

(** ** The whole array *)

Lemma filter_rows_spec : forall taueff thresh fuel rows, taueff + 1 / 4 <= thresh ->
  Forall (fun r => r <> [] /\ (length r <= fuel)%nat) rows ->
  exists out, filter_rows fuel taueff thresh rows = Done out /\
    Forall2 (fun r r' => masked thresh (taueff + 1 / 4) taueff r r' /\ forall x, In x r' -> x <= thresh) rows out.
Proof.
  intros taueff thresh fuel rows Hth H. induction H as [|r rows (Hr & Hf) _ (out & E & F)].
  - exists []. split; [reflexivity|constructor].
  - destruct (C25_exact_aux taueff thresh r fuel Hr Hth Hf) as (r' & E' & M).
    exists (r' :: out). cbn [filter_rows]. rewrite E', E. split; [reflexivity|]. constructor; assumption.
Qed.

Lemma C25_array_aux : forall tau thresh fuel, tau <> [] -> Forall (fun r => r <> [] /\ (length r <= fuel)%nat) tau ->
  effective_tau tau + 1 / 4 <= thresh -> 0 < thresh ->
  exists out, filter_tau fuel tau (Some thresh) = Done out /\
    Forall2 (fun r r' => masked thresh (effective_tau tau + 1 / 4) (effective_tau tau) r r' /\ forall x, In x r' -> x <= thresh) tau out.
Proof.
  intros tau thresh fuel Hne H Hth Hpos. destruct (filter_rows_spec _ _ fuel tau Hth H) as (out & E & F).
  exists out. split; [|assumption]. unfold filter_tau. rewrite E.
  assert (Hx : forall x, In x (concat out) -> x <= thresh).
  { intros x Hin. apply in_concat in Hin. destruct Hin as (r' & Hr' & Hin). clear - F Hr' Hin.
    induction F as [|r r0 rows out (_ & Hle) _ IH]; [contradiction|]. destruct Hr' as [->|Hr']; [apply Hle; assumption|auto]. }
  assert (Hc : concat out <> []).
  { destruct tau as [|r rows]; [congruence|]. inversion F as [|? r0 ? out' (M & _)]; subst. inversion H as [|? ? (Hr & _)]; subst.
    destruct M as (L & _). destruct r; [congruence|]. destruct r0; [discriminate|]. discriminate. }
  destruct (argmax_some _ Hc) as (b & w & Em). rewrite Em. destruct (argmax_spec _ _ _ Em) as (B1 & B2 & _).
  assert (w <= thresh) by (rewrite <- B2; apply Hx, nth_In; assumption).
  destruct (Rlt_dec w (thresh * (101 / 100))) as [|Hn]; [reflexivity|]. exfalso. lra.
Qed.

Lemma C25_array_diverges_aux : forall tau thresh fuel r x, In r tau -> In x r -> Forall (fun r => r <> []) tau ->
  (thresh < x <= effective_tau tau + 1 / 4 \/ (thresh < x /\ thresh < effective_tau tau)) ->
  filter_tau fuel tau (Some thresh) = Running.
Proof.
  intros tau thresh fuel r x Hr Hx Hne Hcond. unfold filter_tau.
  assert (G : filter_rows fuel (effective_tau tau) thresh tau = Running); [|rewrite G; reflexivity].
  set (te := effective_tau tau) in *. clearbody te.
  assert (NoRaise : forall l, l <> [] -> filter_single fuel te thresh l <> Raises).
  { clear. induction fuel as [|fuel IH]; intros l Hl.
    all: destruct (argmax_some l Hl) as (maxx & v & Em); pose proof (argmax_spec _ _ _ Em) as (A1 & A2 & A3);
         cbn [filter_single]; rewrite Em; destruct (Rlt_dec thresh v); try discriminate.
    assert (Hgap : te < te + 1 / 4) by lra.
    destruct (pass_spec (te + 1 / 4) te l Hgap (fun _ => false) l maxx) as (l1 & l2 & S2 & E1 & E2 & L1 & (L2 & _) & _);
      [lia|apply start_state|assumption|].
    rewrite E1. rewrite L1 in E2. rewrite E2. apply IH. intros ->. destruct l; [congruence|discriminate]. }
  induction tau as [|r0 tau IH]; [contradiction|]. inversion Hne as [|? ? H0 Hne']; subst. cbn [filter_rows].
  destruct Hr as [->|Hr].
  - replace (filter_single fuel te thresh r) with (@Running (list R)); [reflexivity|]. symmetry.
    destruct Hcond as [H|(H & H')]; [apply (C25_diverges_aux _ _ _ _ x)|apply (C25_diverges_high_aux _ _ _ _ x)]; assumption.
  - rewrite (IH Hr Hne'). specialize (NoRaise r0 H0). destruct (filter_single fuel te thresh r0); [reflexivity|congruence|reflexivity].
Qed.

Lemma C25_effective_aux : forall tau, concat tau <> [] ->
  exp (- effective_tau tau) * INR (length (concat tau)) = rsum (map (fun t => exp (- t)) (concat tau)).
Proof.
  intros tau H. unfold effective_tau. rewrite Ropp_involutive.
  assert (L : 0 < INR (length (concat tau))) by (apply lt_0_INR; destruct (concat tau); [congruence|cbn; lia]).
  assert (P : 0 < rsum (map (fun t => exp (- t)) (concat tau))).
  { destruct (concat tau) as [|a l]; [congruence|]. clear. unfold rsum. cbn [map fold_right]. pose proof (exp_pos (- a)).
    assert (0 <= fold_right Rplus 0 (map (fun t => exp (- t)) l)); [|lra].
    induction l as [|b l IH]; cbn [map fold_right]; [lra|]. pose proof (exp_pos (- b)). lra. }
  rewrite exp_ln by (apply Rdiv_lt_0_compat; assumption). field. lra.
Qed.

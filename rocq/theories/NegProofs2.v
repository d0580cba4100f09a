(** Byte strings that are not an encoding of message_1. *)
From Verif Require Import Monad Rfc Wire Facts.

Lemma cons_inj : forall A (a b : A) l m, a :: l = b :: m -> a = b /\ l = m.
Proof. intros A a b l m H. injection H as -> ->. now split. Qed.
Lemma head_inv : forall M n h r x y, is_head M n h -> h ++ r = x :: y -> 0 <= M < 8 -> 
  M = x / 32 /\ (x mod 32 < 24 -> h = [x] /\ n = x mod 32 /\ r = y) /\
  (x mod 32 = 24 -> exists z, n = z /\ z :: r = y /\ h = [x; z]).
Proof.
  intros M n h r x y (a & b & -> & [(-> & -> & H)|(k & K & -> & L & N)]) X HM; cbn [app] in X; apply cons_inj in X as [<- <-].
  - change (2 ^ 5) with 32. replace ((32 * M + n) / 32) with M by (apply Z.div_unique with n; lia).
    replace ((32 * M + n) mod 32) with n by (apply Z.mod_unique with M; lia). split; [reflexivity|]. split; [now repeat split|]. lia.
  - change (2 ^ 5) with 32. replace ((32 * M + (24 + k)) / 32) with M by (apply Z.div_unique with (24 + k); lia).
    replace ((32 * M + (24 + k)) mod 32) with (24 + k) by (apply Z.mod_unique with M; lia).
    split; [reflexivity|]. split; [lia|]. intros K0. assert (k = 0) by lia. subst k. change (2 ^ 0) with 1 in L.
    destruct b as [|z [|? ?]]; unfold zlen in L; cbn [length] in L; try lia. exists z. split; [|now split]. subst n. cbn. lia.
Qed.
Lemma head_some : forall M n h, is_head M n h -> h <> [].
Proof. intros M n h (a & b & -> & _). discriminate. Qed.
Lemma written_some : forall i h, written i h -> h <> [].
Proof. intros i h H. inversion H; subst; match goal with X : is_head _ _ ?h |- _ => apply head_some in X; destruct h end; try discriminate; contradiction. Qed.
Lemma seq_inv : forall i l m, written_seq (i :: l) m -> exists a b, m = a ++ b /\ written i a /\ written_seq l b.
Proof. intros i l m H. inversion H; subst. eauto. Qed.
Lemma num_inv : forall v a r x y, written (Num v) a -> a ++ r = x :: y -> x mod 32 < 24 -> a = [x] /\ r = y /\ x / 32 <= 1.
Proof.
  intros v a r x y H X L. inversion H; subst; match goal with Y : is_head _ _ _ |- _ => rename Y into K end. destruct (head_inv _ _ _ _ _ _ K X) as (A & B & _); [destruct (v <? 0); lia|].
  destruct (B L) as (-> & _ & ->). repeat split. rewrite <- A. destruct (v <? 0); lia.
Qed.
Lemma bstr_inv : forall b a r x z y, written (Bstr b) a -> a ++ r = x :: z :: y -> x mod 32 = 24 -> b ++ r = y /\ zlen b = z /\ x / 32 = 2.
Proof.
  intros b a r x z y H X L. inversion H; subst; match goal with Y : is_head _ _ _ |- _ => rename Y into K end. rewrite <- app_assoc in X.
  destruct (head_inv _ _ _ _ _ _ K X) as (A & _ & B); [lia|]. destruct (B L) as (z' & B1 & B2 & _). injection B2 as -> <-. repeat split; congruence.
Qed.
(** After METHOD and SUITES_I in one byte each and a 32-byte G_X: what must follow. *)
Lemma message_1_rest : forall method suites gx ci l m s g rest,
  written_seq (message_1_items method suites gx ci l) (m :: s :: 88 :: 32 :: g ++ rest) -> zlen g = 32 ->
  m mod 32 < 24 -> s mod 32 < 24 -> s / 32 <= 1 -> written_seq (cid_item ci :: flat_map ead_items l) rest.
Proof.
  intros method suites gx ci l m s g rest H G M S S2. unfold message_1_items in H. cbn [app] in H.
  apply seq_inv in H as (a1 & b1 & X1 & W1 & H). symmetry in X1. destruct (num_inv _ _ _ _ _ W1 X1 M) as (-> & -> & _). 
  apply seq_inv in H as (a2 & b2 & X2 & W2 & H). symmetry in X2.
  assert (Y2 : b2 = 88 :: 32 :: g ++ rest).
  { destruct suites as [|v [|u l0]]; cbn [suites_item] in W2.
    - inversion W2; subst; match goal with Y : is_head _ _ _ |- _ => rename Y into K end. rewrite <- app_assoc in X2. destruct (head_inv _ _ _ _ _ _ K X2) as (A & _); lia.
    - now destruct (num_inv _ _ _ _ _ W2 X2 S) as (_ & -> & _).
    - inversion W2; subst; match goal with Y : is_head _ _ _ |- _ => rename Y into K end. rewrite <- app_assoc in X2. destruct (head_inv _ _ _ _ _ _ K X2) as (A & _); lia. }
  subst b2. apply seq_inv in H as (a3 & b3 & X3 & W3 & H). symmetry in X3.
  destruct (bstr_inv _ _ _ _ _ _ W3 X3) as (A & B & _); [reflexivity|].
  assert (gx = g /\ b3 = rest) as [_ ->]; [|exact H].
  revert A. assert (length gx = length g) as LL by (unfold zlen in *; lia). clear - LL. revert g LL. induction gx as [|x gx IH]; intros [|y g] LL A; try discriminate.
  - cbn in A. now split.
  - cbn in A. injection A as -> A. injection LL as LL. destruct (IH g LL A) as [-> ->]. now split.
Qed.
Lemma no_cid : forall method suites gx ci l m s g, zlen g = 32 -> m mod 32 < 24 -> s mod 32 < 24 -> s / 32 <= 1 ->
  ~ written_seq (message_1_items method suites gx ci l) (m :: s :: 88 :: 32 :: g).
Proof.
  intros method suites gx ci l m s g G M S S2 H. rewrite <- (app_nil_r g) in H. apply message_1_rest in H; try assumption.
  apply seq_inv in H as (a & b & X & W & _). apply written_some in W. destruct a; [contradiction|discriminate].
Qed.
Lemma no_trailing : forall method suites gx ci l m s g i x, zlen g = 32 -> m mod 32 < 24 -> s mod 32 < 24 -> s / 32 <= 1 ->
  i mod 32 < 24 -> i / 32 <= 1 -> 2 <= x / 32 ->
  ~ written_seq (message_1_items method suites gx ci l) (m :: s :: 88 :: 32 :: g ++ [i; x]).
Proof.
  intros method suites gx ci l m s g i x G M S S2 I I2 X2 H. apply message_1_rest in H; try assumption.
  apply seq_inv in H as (a & b & X & W & H). symmetry in X.
  assert (b = [x]).
  { destruct ci as [v|c]; cbn [cid_item] in W; [now destruct (num_inv _ _ _ _ _ W X I) as (_ & -> & _)|].
    inversion W; subst; match goal with Y : is_head _ _ _ |- _ => rename Y into K end. rewrite <- app_assoc in X. destruct (head_inv _ _ _ _ _ _ K X) as (A & _); lia. }
  subst b. destruct l as [|[lab v] l]; [inversion H|]. cbn [flat_map ead_items fst snd app] in H.
  apply seq_inv in H as (a4 & b4 & X4 & W4 & _). symmetry in X4. inversion W4; subst; match goal with Y : is_head _ _ _ |- _ => rename Y into K end.
  destruct (head_inv _ _ _ _ _ _ K X4) as (A & _); [destruct (lab <? 0); lia|]. destruct (lab <? 0); lia.
Qed.

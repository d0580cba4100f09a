(** Facts about byte strings, arrays and sizes. *)
From Verif Require Import Bytes.
From Coq Require Export ZifyNat.

Lemma zlen_nil : forall A, zlen (@nil A) = 0. Proof. reflexivity. Qed.
Lemma zlen_cons : forall A (x : A) l, zlen (x :: l) = 1 + zlen l.
Proof. intros. unfold zlen. cbn [length]. lia. Qed.
Lemma zlen_app : forall A (a b : list A), zlen (a ++ b) = zlen a + zlen b.
Proof. intros. unfold zlen. rewrite app_length. lia. Qed.
Lemma zlen_nonneg : forall A (l : list A), 0 <= zlen l.
Proof. intros. unfold zlen. lia. Qed.
Lemma zlen_0 : forall A (l : list A), zlen l = 0 -> l = [].
Proof. intros A l H. destruct l; [reflexivity|]. rewrite zlen_cons in H. pose proof (zlen_nonneg A l). lia. Qed.
Lemma zlen_zeros : forall n, 0 <= n -> zlen (zeros n) = n.
Proof. intros. unfold zlen, zeros. rewrite repeat_length. lia. Qed.
Lemma zlen_zeros_max : forall n, zlen (zeros n) = Z.max 0 n.
Proof. intros. unfold zlen, zeros. rewrite repeat_length. lia. Qed.
Lemma zlen_map : forall A B (f : A -> B) l, zlen (map f l) = zlen l.
Proof. intros. unfold zlen. now rewrite map_length. Qed.

Lemma zlen_take : forall A n (l : list A), 0 <= n <= zlen l -> zlen (take n l) = n.
Proof. intros. unfold zlen, take in *. rewrite firstn_length. lia. Qed.
Lemma zlen_take_le : forall A n (l : list A), 0 <= n -> zlen (take n l) <= n.
Proof. intros. unfold zlen, take. rewrite firstn_length. lia. Qed.
Lemma take_all : forall A n (l : list A), zlen l <= n -> take n l = l.
Proof. intros. unfold take, zlen in *. apply firstn_all2. lia. Qed.
Lemma take_0 : forall A (l : list A), take 0 l = [].
Proof. reflexivity. Qed.
Lemma drop_0 : forall A (l : list A), drop 0 l = l.
Proof. reflexivity. Qed.
Lemma take_app_exact : forall A n (a b : list A), zlen a = n -> take n (a ++ b) = a.
Proof.
  intros A n a b H. unfold take, zlen in *. subst n. rewrite Nat2Z.id.
  rewrite firstn_app, Nat.sub_diag, firstn_all. cbn. apply app_nil_r.
Qed.
Lemma drop_app_exact : forall A n (a b : list A), zlen a = n -> drop n (a ++ b) = b.
Proof.
  intros A n a b H. unfold drop, zlen in *. subst n. rewrite Nat2Z.id.
  rewrite skipn_app, Nat.sub_diag, skipn_all. reflexivity.
Qed.
Lemma take_drop : forall A n (l : list A), take n l ++ drop n l = l.
Proof. intros. unfold take, drop. apply firstn_skipn. Qed.
Lemma zlen_drop : forall A n (l : list A), 0 <= n <= zlen l -> zlen (drop n l) = zlen l - n.
Proof. intros. unfold zlen, drop in *. rewrite skipn_length. lia. Qed.
Lemma zlen_drop_le : forall A n (l : list A), zlen (drop n l) <= zlen l.
Proof. intros. unfold zlen, drop in *. rewrite skipn_length. lia. Qed.
Lemma drop_drop : forall A n m (l : list A), 0 <= n -> 0 <= m -> drop n (drop m l) = drop (m + n) l.
Proof.
  intros A n m l Hn Hm. unfold drop. rewrite Z2Nat.inj_add by lia.
  generalize (Z.to_nat m) (Z.to_nat n). intros a b. revert l.
  induction a as [|a IH]; intros l; cbn; [reflexivity|]. destruct l as [|x l]; [now rewrite skipn_nil|]. apply IH.
Qed.
Lemma take_take : forall A n m (l : list A), 0 <= n <= m -> take n (take m l) = take n l.
Proof. intros. unfold take. rewrite firstn_firstn. f_equal. lia. Qed.
Lemma take_app_le : forall A n (a b : list A), n <= zlen a -> take n (a ++ b) = take n a.
Proof.
  intros A n a b H. unfold take, zlen in *. rewrite firstn_app.
  replace (Z.to_nat n - length a)%nat with O by lia. cbn. apply app_nil_r.
Qed.

(** Arrays. *)
Lemma zlen_arr_read : forall n l, 0 <= n -> zlen (arr_read n l) = n.
Proof.
  intros n l H. unfold arr_read. apply zlen_take. rewrite zlen_app, zlen_zeros by lia.
  pose proof (zlen_nonneg _ l). lia.
Qed.
Lemma arr_read_exact : forall n l, zlen l = n -> arr_read n l = l.
Proof. intros. unfold arr_read. now apply take_app_exact. Qed.
Lemma arr_read_blit : forall n old out, zlen out = n -> arr_read n (blit old out) = out.
Proof. intros. unfold arr_read, blit. rewrite <- app_assoc. now apply take_app_exact. Qed.
Lemma blit_zeros_exact : forall n out, zlen out = n -> blit (zeros n) out = out.
Proof.
  intros n out H. unfold blit, zeros, zlen in *. rewrite skipn_all2, app_nil_r; [reflexivity|].
  rewrite repeat_length. lia.
Qed.
Lemma zlen_blit_zeros : forall n out, zlen out <= n -> zlen (blit (zeros n) out) = n.
Proof.
  intros n out H. unfold blit, zlen, zeros in *. rewrite app_length, skipn_length, repeat_length. lia.
Qed.
Lemma zlen_blit : forall A (dst src : list A), zlen (blit dst src) = Z.max (zlen dst) (zlen src).
Proof. intros. unfold blit, zlen. rewrite app_length, skipn_length. lia. Qed.
Lemma arr_read_nil : forall n, 0 <= n -> arr_read n [] = zeros n.
Proof.
  intros n H. unfold arr_read. cbn [app]. apply take_all. rewrite zlen_zeros; lia.
Qed.

Lemma beqb_refl : forall a, beqb a a = true.
Proof. induction a; cbn; [reflexivity|]. now rewrite Z.eqb_refl. Qed.
Lemma beqb_eq : forall a b, beqb a b = true <-> a = b.
Proof.
  induction a as [|x a IH]; destruct b as [|y b]; cbn; split; intro H; try easy.
  - apply andb_true_iff in H as [H1 H2]. apply Z.eqb_eq in H1. apply IH in H2. congruence.
  - inversion H; subst. now rewrite Z.eqb_refl, beqb_refl.
Qed.

Lemma zsum_app : forall a b, zsum (a ++ b) = zsum a + zsum b.
Proof. induction a; intros; cbn [zsum fold_right app] in *; [reflexivity|]. unfold zsum in *. rewrite IHa. lia. Qed.
Lemma zsum_cons : forall x l, zsum (x :: l) = x + zsum l.
Proof. reflexivity. Qed.

(** xor. *)
Lemma zlen_xor : forall a b, zlen (xor_bytes a b) = zlen a.
Proof.
  induction a as [|x a IH]; destruct b; cbn [xor_bytes]; try reflexivity.
  rewrite !zlen_cons, IH. reflexivity.
Qed.
Lemma xor_xor : forall a b, xor_bytes (xor_bytes a b) b = a.
Proof.
  induction a as [|x a IH]; destruct b as [|y b]; cbn [xor_bytes]; try reflexivity.
  rewrite IH. f_equal. rewrite Z.lxor_assoc, Z.lxor_nilpotent, Z.lxor_0_r. reflexivity.
Qed.

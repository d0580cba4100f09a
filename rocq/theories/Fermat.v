(** Fermat's little theorem and square roots modulo a prime p = 3 (mod 4). *)
From Coq Require Import ZArith Znumtheory Zpow_facts List Lia Permutation.
Import ListNotations.
Open Scope Z_scope.

Definition prod (l : list Z) : Z := fold_right Z.mul 1 l.
Lemma prod_perm l m : Permutation l m -> prod l = prod m.
Proof. induction 1; cbn; fold prod; try lia. all: try (unfold prod in *; congruence); ring. Qed.
Lemma prod_scale a l : prod (map (Z.mul a) l) = a ^ Z.of_nat (length l) * prod l.
Proof.
  induction l as [|x l IH]; [reflexivity|]. cbn [map prod fold_right length]. fold (prod l). fold (prod (map (Z.mul a) l)).
  rewrite IH, Nat2Z.inj_succ, Z.pow_succ_r by lia. ring.
Qed.
Lemma prod_mod p l : prod (map (fun x => x mod p) l) mod p = prod l mod p.
Proof.
  induction l as [|x l IH]; [reflexivity|]. cbn [map prod fold_right]. fold (prod l). fold (prod (map (fun x => x mod p) l)).
  rewrite Zmult_mod, IH, Zmod_mod, <- Zmult_mod. reflexivity.
Qed.

Section Fermat.
Context (p : Z) (Hp : prime p).
Lemma p_gt_1 : 1 < p. Proof. pose proof (prime_ge_2 _ Hp). lia. Qed.
Definition residues : list Z := map Z.of_nat (seq 1 (Z.to_nat (p - 1))).
Lemma in_residues x : In x residues <-> 0 < x < p.
Proof.
  pose proof p_gt_1. unfold residues. rewrite in_map_iff. split.
  - intros (n & <- & I). apply in_seq in I. lia.
  - intros ?. exists (Z.to_nat x). split; [lia|]. apply in_seq. lia.
Qed.
Lemma nodup_residues : NoDup residues.
Proof.
  unfold residues. apply FinFun.Injective_map_NoDup; [|apply seq_NoDup]. intros a b. lia.
Qed.
Lemma mod_0_divide x : x mod p = 0 <-> (p | x).
Proof. pose proof p_gt_1. split; [apply Zmod_divide; lia|apply Zdivide_mod]. Qed.
Lemma prod_coprime l : (forall x, In x l -> ~ (p | x)) -> ~ (p | prod l).
Proof.
  induction l as [|x l IH]; cbn; intros H D.
  - apply Z.divide_1_r in D. pose proof p_gt_1. lia.
  - apply prime_mult in D; [|exact Hp]. destruct D as [D|D]; [now apply (H x); [left|]|].
    apply IH; auto.
Qed.
Lemma cancel a x y : ~ (p | a) -> (a * x) mod p = (a * y) mod p -> x mod p = y mod p.
Proof.
  pose proof p_gt_1. intros Ha E.
  assert (D : (p | a * (x - y))).
  { apply mod_0_divide. replace (a * (x - y)) with (a * x - a * y) by ring.
    rewrite Zminus_mod, E, Z.sub_diag. apply Zmod_0_l. }
  apply prime_mult in D; [|exact Hp]. destruct D as [D|D]; [contradiction|].
  destruct D as [k D]. replace x with (y + k * p) by lia. now rewrite Z_mod_plus_full.
Qed.
Theorem fermat a : ~ (p | a) -> a ^ (p - 1) mod p = 1.
Proof.
  pose proof p_gt_1 as P1. intros Ha.
  set (m := map (fun x => x mod p) (map (Z.mul a) residues)).
  assert (PE : Permutation m residues).
  { apply NoDup_Permutation_bis.
    - unfold m. rewrite map_map. pose proof nodup_residues as N. revert N.
      assert (B : forall x, In x residues -> 0 < x < p) by (intros x; apply in_residues). revert B.
      generalize residues. intros l B N. induction N as [|x l NI N IH]; cbn; constructor.
      + intros I. apply in_map_iff in I. destruct I as (y & E & I). apply cancel in E; [|exact Ha].
        rewrite !Zmod_small in E by (pose proof (B x (or_introl eq_refl)); pose proof (B y (or_intror I)); lia).
        subst. contradiction.
      + apply IH. intros y I. apply B. now right.
    - unfold m. now rewrite !map_length.
    - intros x I. unfold m in I. rewrite map_map in I. apply in_map_iff in I. destruct I as (y & <- & I).
      apply in_residues in I. apply in_residues.
      pose proof (Z_mod_lt (a * y) p ltac:(lia)).
      assert (a * y mod p <> 0); [|lia]. intros Z0. apply mod_0_divide in Z0. apply prime_mult in Z0; [|exact Hp].
      destruct Z0 as [Z0|Z0]; [contradiction|]. apply Z.divide_pos_le in Z0; lia. }
  apply prod_perm in PE. apply (f_equal (fun z => z mod p)) in PE. unfold m in PE.
  rewrite prod_mod, prod_scale in PE. unfold residues in PE at 1. rewrite map_length, seq_length, Z2Nat.id in PE by lia.
  rewrite Z.mul_comm in PE. rewrite <- (Z.mul_1_r (prod residues)) in PE at 2.
  apply cancel in PE.
  - rewrite PE. apply Zmod_small. lia.
  - apply prod_coprime. intros x I. apply in_residues in I. intros D. apply Z.divide_pos_le in D; lia.
Qed.

(** A square has the root x ^ ((p + 1) / 4). *)
Theorem sqrt_mod x y : p mod 4 = 3 -> (y * y) mod p = x mod p ->
  let r := x ^ ((p + 1) / 4) mod p in (r * r) mod p = x mod p.
Proof.
  pose proof p_gt_1 as P1. intros P3 E r.
  assert (Q : 4 * ((p + 1) / 4) = p + 1).
  { pose proof (Z_div_mod_eq_full p 4). rewrite P3 in H.
    replace (p + 1) with (4 * (p / 4) + 4) by lia.
    replace (4 * (p / 4) + 4) with ((p / 4 + 1) * 4) by ring. rewrite Z_div_mult_full; lia. }
  set (n := (p + 1) / 4) in *. assert (N : 0 <= n) by lia.
  unfold r. rewrite <- Zmult_mod, <- Z.pow_add_r by lia.
  assert (X : x ^ (n + n) mod p = (y * y) ^ (n + n) mod p).
  { rewrite (Zpower_mod (y * y)), E, <- Zpower_mod by lia. reflexivity. }
  rewrite X, <- (Z.pow_2_r y), <- Z.pow_mul_r by lia. replace (2 * (n + n)) with (2 + (p - 1)) by lia.
  rewrite Z.pow_add_r by lia. rewrite Z.pow_2_r.
  destruct (Zdivide_dec p y) as [D|D].
  - rewrite Zmult_mod, E. assert (x mod p = 0) as ->; [|reflexivity].
    rewrite <- E. apply mod_0_divide. now apply Z.divide_mul_l.
  - rewrite Zmult_mod, fermat, Z.mul_1_r, Zmod_mod by exact D. exact E.
Qed.
End Fermat.

(** Libraries for the examples and refutations on the ready-made suites.  Their cryptography is a
    toy, but it keeps every contract of SuiteSpec.v and PqcSpec.v.

    No code of /repo is modelled here. *)
From Coq Require FinFun.
From Verif Require Import Bytes Facts Values Monad Psa SuiteX SuiteW SuitePqc SuiteCalls SuiteSpec SuitePoint PqcCalls PqcSpec.

Definition fit (n : Z) (b : bytes) : bytes := take n (b ++ zeros n).
Lemma zlen_fit n b : 0 <= n -> zlen (fit n b) = n.
Proof. intros H. unfold fit. apply zlen_take. rewrite zlen_app, zlen_zeros by lia. pose proof (zlen_nonneg _ b). lia. Qed.
Definition sum (b : bytes) : Z := fold_left (fun a z => (3 * a + z) mod 256) b 7.
(** The first free identifier. *)
Fixpoint first_free (n : nat) (z : Z) (ids : list Z) : Z :=
  match n with
  | O => z
  | S k => if existsb (Z.eqb z) ids then first_free k (z + 1) ids else z
  end.
Lemma first_free_ok ids : forall n z, 
  (In (first_free n z ids) ids -> forall i, z <= i <= z + Z.of_nat n -> In i ids) /\ z <= first_free n z ids <= z + Z.of_nat n.
Proof.
  induction n as [|n IH]; intros z.
  - cbn [first_free]. split; [|lia]. intros H i Hi. replace i with z by lia. exact H.
  - cbn [first_free]. destruct (existsb (Z.eqb z) ids) eqn:E.
    + destruct (IH (z + 1)) as [A B]. split; [|lia]. intros H i Hi. destruct (Z.eq_dec i z) as [->|N]; [|apply A; [exact H|lia]].
      apply existsb_exists in E. destruct E as (x & I & Q). apply Z.eqb_eq in Q. now subst x.
    + split; [|lia]. intros H i _. exfalso. assert (existsb (Z.eqb z) ids = true); [|congruence].
      apply existsb_exists. exists z. split; [exact H|apply Z.eqb_refl].
Qed.
Definition upto (n : nat) (z : Z) : list Z := map (fun k => z + Z.of_nat k) (seq 0 n).
Lemma first_free_fresh ids z : ~ In (first_free (length ids) z ids) ids.
Proof.
  intros H. destruct (first_free_ok ids (length ids) z) as [A _]. specialize (A H).
  assert (NoDup (upto (S (length ids)) z)) as ND.
  { unfold upto. apply FinFun.Injective_map_NoDup; [intros a b E; lia|apply seq_NoDup]. }
  assert (incl (upto (S (length ids)) z) ids) as IN.
  { intros i I. unfold upto in I. apply in_map_iff in I. destruct I as (k & <- & K). apply in_seq in K. apply A. lia. }
  pose proof (NoDup_incl_length ND IN) as LE. unfold upto in LE. rewrite map_length, seq_length in LE. lia.
Qed.
(** Points with y = 1, for which square roots are quick to compute. *)
Definition gen (c : curve) : Z * Z :=
  match c with
  | P256 => (0x8d0177ebab9c6e9e10db6dd095dbac0d6375e8a97b70f611875d877f0069d2c7, 1)
  | P384 => (0x2261b2bf605c22f2f3aef6338719b2c486388ad5240719a5257315969ef01ba27f0a104c89704773a81fdabee6ab5c78, 1)
  end.
(** A commutative group on 32 bytes. *)
Definition add (a b : bytes) : bytes := map (fun p => (fst p + snd p) mod 256) (combine (fit 32 a) (fit 32 b)).
Lemma combine_swap {A} : forall (a b : list A), combine a b = map (fun p => (snd p, fst p)) (combine b a).
Proof. induction a as [|x a IH]; intros [|y b]; cbn; auto. now rewrite IH. Qed.
Lemma add_comm a b : add a b = add b a.
Proof.
  unfold add. rewrite (combine_swap (fit 32 a)), map_map. cbn [fst snd]. apply map_ext. intros [x y]. cbn. now rewrite Z.add_comm.
Qed.
Definition same (a b : bytes) : bool := if list_eq_dec Z.eq_dec a b then true else false.
Lemma same_refl a : same a a = true.
Proof. unfold same. destruct (list_eq_dec Z.eq_dec a a); congruence. Qed.
Lemma prepare_nonzero b : zlen b = 32 -> same (prepare b) (zeros 32) = false.
Proof.
  intros Z. unfold same. destruct (list_eq_dec Z.eq_dec (prepare b) (zeros 32)) as [E|]; [|reflexivity]. exfalso.
  apply (f_equal (fun l => nth 31 l 1)) in E. cbn [zeros repeat Z.to_nat Pos.to_nat Pos.iter_op Init.Nat.add nth] in E.
  destruct b as [|x b]; [discriminate Z|]. unfold prepare in E.
  assert (T : zlen (take 31 (Z.land x 0xf8 :: b)) = 31) by (apply zlen_take; rewrite zlen_cons in *; lia).
  rewrite app_nth2 in E by (unfold zlen in T; lia).
  replace (31 - length (take 31 (Z.land x 0xf8 :: b)))%nat with O in E by (unfold zlen in T; lia).
  assert (D : zlen (drop 31 (Z.land x 0xf8 :: b)) = 1) by (rewrite zlen_drop; rewrite !zlen_cons in *; lia).
  destruct (drop 31 (Z.land x 0xf8 :: b)) as [|y r]; [discriminate D|]. cbn [map nth] in E.
  apply Z.lor_eq_0_iff in E. destruct E as [_ E]. discriminate E.
Qed.
Definition demo_libs (st : list (xcall * Z) -> xcall -> Z) : libs := {|
  x_status := st;
  x_fresh := fun _ ids => first_free (length ids) 0x40000000 ids;
  x_random := fun l n => fit n [zlen l; 1; 2; 3];
  x_hash := fun h i => fit (hash_size h) (sum i :: i);
  x_extract := fun h salt ikm => fit (hash_size h) (sum ikm :: sum salt :: ikm);
  x_expand := fun h prk info n => fit n (sum prk :: sum info :: prk);
  x_seal := fun a t k iv ad p => p ++ fit t [sum k; sum iv; sum ad; sum p];
  x_open := fun a t k iv ad c =>
    let p := take (zlen c - t) c in
    if same c (p ++ fit t [sum k; sum iv; sum ad; sum p]) then Some p else None;
  x_private := fun l c => fit (cv_len c) [zlen l; 1];
  x_public := fun c k => gen c;
  x_ecdh := fun c k x y => be (Z.to_nat (cv_len c)) x;
  x_ecdsa := fun l c k d => fit (2 * cv_len c) (sum d :: d);
  x_ecdsa_ok := fun c pk d sg => same sg (fit (2 * cv_len c) (sum d :: d));
  x_keygen := fun seed => (fit 32 seed, prepare (fit 32 seed));
  x_smult := fun p k => if same p (zeros 32) then zeros 32 else add p k;
  x_ed_sign := fun k m => fit 64 (sum m :: m);
  x_ed_ok := fun sg pk m => same sg (fit 64 (sum m :: m));
  x_kem_pair := fun l => (fit EK_LEN [zlen l], fit DK_LEN [zlen l]);
  x_encaps := fun l pk => (fit CT_LEN [zlen l; 9], fit SS_LEN [zlen l; nth 0 pk 0]);
  x_decaps := fun c k => fit SS_LEN [nth 0 c 0; nth 0 k 0];
  x_dsa_sign := fun l m k => fit SIG_LEN (sum m :: m);
  x_dsa_ok := fun m sg pk => same sg (fit SIG_LEN (sum m :: m));
  x_shake := fun i n => fit n (sum i :: i);
  x_kmac := fun k i n c => fit (n / 8) (sum k :: sum i :: k)
|}.
Lemma demo_fresh st : fresh_ids (demo_libs st).
Proof.
  intros l ids Z. cbn [x_fresh demo_libs]. split; [apply first_free_fresh|].
  destruct (first_free_ok ids (length ids) 0x40000000) as [_ B]. unfold KEY_IDS, zlen in Z. lia.
Qed.
Lemma demo_sized st : sized (demo_libs st).
Proof.
  split; cbn [demo_libs x_hash x_extract x_expand x_seal x_private x_public x_ecdh x_ecdsa x_keygen x_smult x_ed_sign fst snd].
  - intros h i. apply zlen_fit. destruct h; discriminate.
  - intros h a b. apply zlen_fit. destruct h; discriminate.
  - intros h a b n H. now apply zlen_fit.
  - intros a t k iv ad p H. rewrite zlen_app, zlen_fit by exact H. reflexivity.
  - intros l c. apply zlen_fit. destruct c; discriminate.
  - intros [] k; vm_compute; reflexivity.
  - intros c k x y. rewrite zlen_be. destruct c; reflexivity.
  - intros l c k d. apply zlen_fit. destruct c; discriminate.
  - intros s. split; [apply zlen_fit; discriminate|].
    pose proof (zlen_fit 32 s ltac:(discriminate)) as Z. destruct (fit 32 s) as [|b r]; [discriminate Z|]. 
    unfold prepare. rewrite zlen_app, zlen_map, zlen_take, zlen_drop by (rewrite !zlen_cons in *; lia). rewrite zlen_cons in *. lia.
  - intros p k. destruct (same p (zeros 32)); [reflexivity|]. unfold add. rewrite zlen_map. unfold zlen. rewrite combine_length.
    pose proof (zlen_fit 32 p ltac:(discriminate)). pose proof (zlen_fit 32 k ltac:(discriminate)). unfold zlen in *. lia.
  - intros k m. apply zlen_fit. discriminate.
Qed.
Lemma demo_willing : willing (demo_libs (fun _ _ => 0)).
Proof. intros l c. reflexivity. Qed.
Lemma demo_alike s t : alike (demo_libs s) (demo_libs t).
Proof.
  split.
  - intros a b. cbn [demo_libs x_smult x_keygen fst snd]. rewrite !prepare_nonzero by (apply zlen_fit; discriminate). apply add_comm.
  - intros c a b y z _ _. reflexivity.
  - intros f n k iv ad p. cbn [demo_libs x_seal x_open].
    assert (E : take (zlen (p ++ fit n [sum k; sum iv; sum ad; sum p]) - n) (p ++ fit n [sum k; sum iv; sum ad; sum p]) = p).
    { destruct (Z.leb_spec 0 n) as [H|H].
      - rewrite zlen_app, zlen_fit by exact H. replace (zlen p + n - n) with (zlen p) by lia. now apply take_app_exact.
      - replace (fit n [sum k; sum iv; sum ad; sum p]) with (@nil Z).
        + rewrite app_nil_r. unfold take. apply firstn_all2. unfold zlen. lia.
        + unfold fit, take. replace (Z.to_nat n) with O by lia. reflexivity. }
    rewrite E, same_refl. reflexivity.
Qed.
Lemma demo_qsized s : qsized (demo_libs s).
Proof.
  split; cbn [demo_libs x_kem_pair x_encaps x_decaps x_dsa_sign x_shake x_kmac fst snd].
  - intros. split; apply zlen_fit; discriminate.
  - intros. split; apply zlen_fit; discriminate.
  - intros. apply zlen_fit; discriminate.
  - intros. rewrite zlen_fit by discriminate. split; [reflexivity|discriminate].
  - intros. now apply zlen_fit.
  - intros. rewrite Z.mul_comm, Z.div_mul by discriminate. now apply zlen_fit.
Qed.
Lemma demo_kem s t : kem_correct (demo_libs s) (demo_libs t).
Proof. intros l m. reflexivity. Qed.

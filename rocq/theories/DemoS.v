(** An environment whose callbacks respect [abides], used only by the examples and refutations
    on memory safety.  Its cryptography is void: secrets and key streams are zero, signatures
    are not checked, and an attacker can write plaintexts by hand.  That is within the
    contract, since the claims quantify over all callbacks.

    No code of /repo is modelled here. *)
From Verif Require Import Monad Api Common Msg1 Msg2 Msg3 Msg4 Exporter History Spec Rfc Wire Uses
  Received Policy Safety Facts Demo.

(** At most [n] bytes of [b]. *)
Definition cut (n : Z) (b : bytes) : bytes := if zlen b <=? n then b else take n b.
Lemma cut_fits : forall n b, 0 <= n -> zlen (cut n b) <= n.
Proof.
  intros n b H. unfold cut. destruct (zlen b <=? n) eqn:X; [lia|]. rewrite zlen_take by lia. lia.
Qed.
(** [n] zeros, unless that is an absurd number. *)
Definition null (n : Z) : bytes := if n <=? 65536 then zeros n else [].
Lemma null_fits : forall n, 0 <= n -> zlen (null n) <= n.
Proof. intros n H. unfold null. destruct (n <=? 65536); [rewrite zlen_zeros; lia|exact H]. Qed.

Record switches := Sw { sw_stack : option Z; sw_alloc : buf -> Z -> bool; sw_ead : Z; sw_toks : list token }.
Definition null_env (s : switches) : env :=
  Env 3 7 64 64 (sw_ead s) 3 8 10 true (sw_stack s) 256
    (fun _ b n => sw_alloc s b n)
    (fun _ _ kt key => (OK, kt :: key))
    (fun _ _ _ => OK)
    (fun _ _ _ a b => (OK, cut a (repeat 7 32), cut b (zeros 32)))
    (fun _ _ _ _ n => (OK, cut n (zeros 32)))
    (fun _ _ _ _ n => (OK, cut n (zeros 64)))
    (fun _ _ _ _ _ => OK)
    (fun _ _ _ _ n => (OK, null n))
    (fun _ _ _ _ n => (OK, null n))
    (fun _ _ _ _ _ ptxt n => (OK, cut n (ptxt ++ zeros 8)))
    (fun _ _ _ _ _ ctxt n => (OK, cut n (take (zlen ctxt - 8) ctxt)))
    (fun _ _ _ n => (OK, null n))
    (fun p _ => (OK, kid_creds p))
    (fun _ _ cr => (OK, cr, zeros 32))
    (fun _ _ _ n => (OK, firstn (Z.to_nat n) (sw_toks s)))
    (fun _ _ _ _ => OK).
Lemma null_abides : forall s, Forall tok_fits (sw_toks s) -> @abides (null_env s).
Proof.
  intros s HT. split; cbn [o_mkpair o_agree o_sign o_extract o_expand o_encrypt o_decrypt o_hash o_fetch o_cverify o_compose null_env fst snd].
  - intros. split; now apply cut_fits.
  - intros. now apply cut_fits.
  - intros. now apply cut_fits.
  - intros. now apply null_fits.
  - intros. now apply null_fits.
  - intros. now apply cut_fits.
  - intros. now apply cut_fits.
  - intros. now apply null_fits.
  - intros f t cr [= <-]. unfold creds_fit, kid_creds. cbn [cr_label cr_body]. split; [discriminate|]. split; [|split; discriminate].
    intros _. do 5 eexists. split; [reflexivity|]. cbn. discriminate.
  - intros f t cr cr' pub H [= -> _]. exact H.
  - intros f t m n Hn. split.
    + unfold zlen. rewrite firstn_length. lia.
    + apply Forall_forall. intros x I. rewrite Forall_forall in HT. apply HT. rewrite <- (firstn_skipn (Z.to_nat n)). apply in_or_app. now left.
Qed.
Lemma null_limits : forall s, 2 <= sw_ead s <= 3 -> @limits (null_env s).
Proof. intros s H. split; cbn [null_env cf_max_suites cf_max_cid cf_max_ecc cf_max_mac cf_max_kid cf_max_ead]; lia. Qed.

(** An allocator on the heap that refuses more than half of the address space, one that grants
    everything, and variable-length arrays on a stack of 64 KiB. *)
Definition sw_heap : switches := Sw None (fun _ n => n <? 2 ^ 63) 3 [].
Definition sw_greedy : switches := Sw None (fun _ _ => true) 3 [].
Definition sw_vla : switches := Sw (Some 65536) (fun _ _ => true) 3 [].
Definition sw_one_ead : switches := Sw None (fun _ n => n <? 2 ^ 63) 1 [].
Definition eh : env := null_env sw_heap.
Definition eg : env := null_env sw_greedy.
Definition es : env := null_env sw_vla.
Lemma eh_heap : @heap eh.
Proof. split; [reflexivity|]. intros t b n H. cbn. apply Z.ltb_ge. exact H. Qed.
Lemma eh_ok : @limits eh /\ @abides eh. Proof. split; [apply null_limits; cbn; lia|apply null_abides; constructor]. Qed.
Lemma eg_ok : @limits eg /\ @abides eg. Proof. split; [apply null_limits; cbn; lia|apply null_abides; constructor]. Qed.
Lemma es_ok : @limits es /\ @abides es. Proof. split; [apply null_limits; cbn; lia|apply null_abides; constructor]. Qed.

(** Checker for [careful]. *)
Section Check.
Context {E : env}.
Definition boundb (c : ctx) : bool :=
  let s A (o : option A) := match o with Some _ => true | None => false end in
  s _ (f_import (c_keys c)) && s _ (f_destroy (c_keys c)) &&
  (s _ (f_mkpair (c_crypto c)) && s _ (f_agree (c_crypto c)) && s _ (f_sign (c_crypto c)) && s _ (f_verify (c_crypto c)) &&
   s _ (f_extract (c_crypto c)) && s _ (f_expand (c_crypto c)) && s _ (f_encrypt (c_crypto c)) && s _ (f_decrypt (c_crypto c)) &&
   s _ (f_hash (c_crypto c))) &&
  (s _ (f_fetch (c_cred c)) && s _ (f_cverify (c_cred c))).
Lemma boundb_ok : forall c, boundb c = true -> bound c.
Proof.
  intros c H. unfold boundb in H. unfold bound, keys_complete, crypto_complete, cred_complete.
  destruct (c_keys c) as [k1 k2], (c_crypto c) as [c1 c2 c3 c4 c5 c6 c7 c8 c9], (c_cred c) as [r1 r2].
  cbn [f_import f_destroy f_mkpair f_agree f_sign f_verify f_extract f_expand f_encrypt f_decrypt f_hash f_fetch f_cverify] in *.
  rewrite !andb_true_iff in H.
  repeat match goal with X : _ /\ _ |- _ => destruct X end.
  repeat split; intros ->; discriminate.
Qed.
Definition suiteb (s : csuite) : bool :=
  (0 <=? cs_key s) && (0 <=? cs_tag s) && (0 <=? cs_iv s) && (0 <=? cs_hash s) && (cs_hash s <=? cf_max_mac) &&
  (0 <=? cs_mac s) && (0 <=? cs_ecc s) && (cs_ecc s <=? cf_max_ecc) && (0 <=? cs_sign s).
Lemma suiteb_ok : forall s, suiteb s = true -> suite_fits s.
Proof. intros s H. unfold suiteb in H. split; lia. Qed.
Definition fitb (a : api) (c : ctx) : bool :=
  match a with
  | ASuites (Some l) => forallb suiteb l
  | AExport _ _ n => boundb c && (0 <=? n)
  | AOscore _ n1 n2 n3 n4 => boundb c && (0 <=? n1) && (0 <=? n2)
  | AKeyUpdate _ _ => boundb c
  | _ => match kind a with Some _ => boundb c | None => true end
  end.
Lemma fitb_ok : forall a c, fitb a c = true -> fit_call a c.
Proof.
  intros a c H. pose proof (boundb_ok c) as B. 
  destruct a; cbn [fitb fit_call kind] in *; auto.
  - match goal with |- match ?o with Some _ => _ | None => _ end => destruct o as [l|]; [|exact I] end. apply Forall_forall. rewrite forallb_forall in H. intros x I. now apply suiteb_ok, H.
  - apply andb_true_iff in H as [H1 H2]. split; [auto|lia].
  - apply andb_true_iff in H as [H1 H2]. apply andb_true_iff in H1 as [H0 H1]. split; [auto|lia].
Qed.
Fixpoint carefulb (l : list api) (w : world) : bool :=
  match l with
  | [] => true
  | a :: l' => fitb a (w_ctx w) && match do_api a w with Ret _ w' => carefulb l' w' | Ub _ => true end
  end.
Lemma carefulb_ok : forall l w, carefulb l w = true -> careful l w.
Proof.
  induction l as [|a l IH]; intros w H; [exact I|]. cbn [carefulb careful] in *. apply andb_true_iff in H as [H1 H2].
  split; [now apply fitb_ok|]. intros r w' X. rewrite X in H2. now apply IH.
Qed.
Lemma careful_check : forall l rs w, carefulb (AInit :: l) blank = true -> runs (AInit :: l) blank = Ret rs w -> careful_world w.
Proof.
  intros l rs w H R. exists blank, l, rs. split; [exists ctx0, [], []; reflexivity|]. split; [now apply carefulb_ok|exact R].
Qed.
End Check.
(** Checker for a generated key pair in a trace. *)
Definition pair_in (kid priv pub : bytes) (t : list event) : bool :=
  existsb (fun e => match e with EvMkPair k r p q => (r =? OK) && beqb k kid && beqb p priv && beqb q pub | _ => false end) t.
Lemma in_find : forall kid priv pub t, pair_in kid priv pub t = true -> In (EvMkPair kid OK priv pub) t.
Proof.
  intros kid priv pub t H. apply existsb_exists in H as (e & I & H). destruct e; try discriminate H.
  repeat (apply andb_true_iff in H as [H ?]). apply Z.eqb_eq in H.
  repeat match goal with X : beqb _ _ = true |- _ => apply beqb_eq in X end. now subst.
Qed.

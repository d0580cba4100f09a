(** Two parties that are willing to complete a handshake, used only by the examples beside the
    theorems on completion.

    No code of /repo is modelled here.  The "cryptography" is a toy of the right lengths. *)
From Verif Require Import Monad Api Common Msg1 Msg2 Msg3 History Spec Rfc Uses Conform Received Sessions
  Policy Safety Facts Ready Demo DemoS DemoX DemoZ.

(** Toy primitives of cipher suite 2. *)
Definition toy_dh_pub (x : bytes) : bytes := repeat (mix 3 x) 32.
Definition toy_dh (x y : bytes) : bytes := repeat (mix 3 x * hd 0 y) 32.
Definition toy2 : primitives := Prim
  (fun n x => mixes n x) (fun salt ikm => mixes 32 (ikm ++ salt)) (fun prk i n => mixes n (prk ++ i))
  toy_dh_pub toy_dh (p_enc toy) (p_dec toy).
Definition toy_sig (pub x : bytes) : bytes := mixes 64 (pub ++ x).
Definition toy_valid (pub x sig : bytes) : Prop := sig = toy_sig pub x.
(** The key behind a handle, if it is of kind [kt]. *)
Definition held (kt : Z) (kid : bytes) (t : list event) : bytes :=
  match key_of kid t with Some (kt', k) => if kt' =? kt then k else [] | None => [] end.
Definition party_creds (p : Z) : creds := CR [p] COSE_KID (CKid [50; p] false ENC_INT p []).
Definition party_toks : list token := [TK 1 (ZS 2 (Some [7; 8]))].

(** A party with the credentials [me] and the long-term key pair [sk], [pk] knows a peer with
    the credentials [peer] and the key [pkq]. *)
Definition ready_env (me : creds) (sk pk : bytes) (peer : creds) (pkq : bytes) : env :=
  Env 3 7 64 64 3 3 8 10 true None 256
    (fun _ _ n => n <? 2 ^ 63)
    (fun _ _ kt key => (OK, 100 :: kt :: key))
    (fun _ _ _ => OK)
    (fun f _ _ a b => (OK, cut a (eph_of f), cut b (toy_dh_pub (eph_of f))))
    (fun _ t kid y n => (OK, cut n (toy_dh (if beqb kid (cr_priv me) then sk else held KT_KEY_AGREEMENT kid t) y)))
    (fun _ _ kid x n => (OK, cut n (toy_sig pk x)))
    (fun _ t kid x sig => if beqb sig (toy_sig (held KT_VERIFY kid t) x) then OK else -1)
    (fun _ t kid salt n => (OK, cut n (p_extract toy2 salt (held KT_EXTRACT kid t))))
    (fun _ t kid i n => (OK, cut n (p_expand toy2 (held KT_EXPAND kid t) i n)))
    (fun _ t kid iv a x n => (OK, cut n (p_enc toy2 (held KT_ENCRYPT kid t) iv a x)))
    (fun _ t kid iv a y n => match p_dec toy2 (held KT_DECRYPT kid t) iv a y with
                             | Some x => (OK, cut n x) | None => (-1, []) end)
    (fun _ _ x n => (OK, cut n (p_hash toy2 n x)))
    (fun _ _ => (OK, me))
    (fun _ _ _ => (OK, peer, pkq))
    (fun _ _ _ n => (OK, firstn (Z.to_nat n) party_toks))
    (fun _ _ _ _ => OK).

Lemma zlen_mixes : forall n x, 0 <= n -> zlen (mixes n x) = n.
Proof. intros n x H. unfold mixes, zlen. rewrite map_length, seq_length. lia. Qed.
Lemma cut_id : forall n b, zlen b <= n -> cut n b = b.
Proof. intros n b H. unfold cut. now replace (zlen b <=? n) with true by lia. Qed.
Lemma held_eq : forall kt kid t k, key_of kid t = Some (kt, k) -> held kt kid t = k.
Proof. intros kt kid t k H. unfold held. now rewrite H, Z.eqb_refl. Qed.
Lemma toy2_correct : correct toy2.
Proof.
  split; [|apply toy_correct]. intros a b. cbn [p_dh p_pub toy2]. unfold toy_dh, toy_dh_pub. cbn [repeat hd]. now rewrite Z.mul_comm.
Qed.
Lemma toy2_sized : sized toy2 suite2.
Proof.
  unfold sized. cbn [toy2 p_hash p_extract p_expand p_pub p_dh p_enc toy suite2 cs_hash cs_ecc cs_tag]. 
  split; [intro; now apply zlen_mixes|]. split; [intros; now apply zlen_mixes|]. split; [intros; apply zlen_mixes; lia|].
  split; [reflexivity|]. split; [reflexivity|]. intros. rewrite zlen_app. unfold toy_tag. rewrite zlen_mixes; lia.
Qed.
Lemma suite2_modest : modest suite2.
Proof. unfold modest. cbn. lia. Qed.
Lemma party_usable : forall (E : env) p, 0 <= p <= 23 -> usable (party_creds p).
Proof. intros E p H. split; [reflexivity|]. split; [exists (Num p); constructor; lia|]. cbn. discriminate. Qed.
Lemma party_travels : forall p i, travels (party_creds p) i -> i = Num p.
Proof. intros p i H. inversion H; reflexivity. Qed.
Lemma party_admits : forall (E : env) p i, travels (party_creds p) i -> admits i.
Proof.
  intros E p i T. apply party_travels in T as ->. split; [intros b X; discriminate X|]. split; [|intros a fp X; discriminate X].
  intros l X. destruct l as [|a [|b l]]; discriminate X.
Qed.
Lemma party_fit : forall (E : env) p, 0 <= cf_max_kid -> creds_fit (party_creds p).
Proof.
  intros E p H. unfold creds_fit, party_creds. cbn [cr_label cr_body]. split; [discriminate|]. split; [|split; discriminate].
  intros _. do 5 eexists. split; [reflexivity|]. cbn. lia.
Qed.

Section Party.
Variables (me : creds) (sk pk : bytes) (peer : creds) (pkq : bytes).
Local Instance RE : env := ready_env me sk pk peer pkq.
Lemma ready_limits : limits.
Proof. split; cbn; lia. Qed.
Lemma ready_abides : creds_fit me -> creds_fit peer -> abides.
Proof.
  intros HM HP.
  split; cbn [o_mkpair o_agree o_sign o_extract o_expand o_encrypt o_decrypt o_hash o_fetch o_cverify o_compose ready_env RE fst snd].
  - intros. split; now apply cut_fits.
  - intros. now apply cut_fits.
  - intros. now apply cut_fits.
  - intros. now apply cut_fits.
  - intros. now apply cut_fits.
  - intros. now apply cut_fits.
  - intros. match goal with |- context [match ?x with Some _ => _ | None => _ end] => destruct x end; cbn [snd]; [now apply cut_fits|assumption].
  - intros. now apply cut_fits.
  - intros f t cr [= <-]. exact HM.
  - intros f t cr cr' pub _ [= <- _]. exact HP.
  - intros f t m n Hn. split.
    + unfold zlen. rewrite firstn_length. lia.
    + destruct (Z.to_nat n) as [|k]; cbn [firstn party_toks]; [constructor|]. rewrite firstn_nil. constructor; [cbn; lia|constructor].
Qed.
Lemma ready_willing : hd 0 (cr_priv me) <> 100 -> usable peer -> 0 < zlen pkq ->
  willing toy2 toy_valid suite2 me sk pk peer pkq 8.
Proof.
  intros HP HQ HK.
  split; cbn [o_alloc o_import o_mkpair o_agree o_sign o_verify o_extract o_expand o_encrypt o_decrypt o_hash o_fetch o_cverify o_compose o_process
    cf_stack cf_sizeof_mac ready_env RE suite2 cs_ecc cs_sign cs_hash cs_tag].
  - split; [reflexivity|lia].
  - intros. lia.
  - intros. eexists. split; [reflexivity|]. intro X. apply HP. now rewrite <- X.
  - intros. exists (eph_of f). rewrite !cut_id by (cbn; lia). split; reflexivity.
  - intros f t kid x y n N K L. destruct (beqb kid (cr_priv me)) eqn:B; [apply beqb_eq in B; congruence|]. rewrite (held_eq _ _ _ _ K).
    rewrite cut_id; [reflexivity|]. cbn. lia.
  - intros f t y n L. rewrite beqb_refl. rewrite cut_id; [reflexivity|]. cbn. lia.
  - intros f t x n L. exists (toy_sig pk x). unfold toy_sig. rewrite cut_id by (rewrite zlen_mixes; lia). rewrite zlen_mixes by lia.
    split; [reflexivity|]. split; [lia|reflexivity].
  - intros f t kid pub x sig K ->. rewrite (held_eq _ _ _ _ K). now rewrite beqb_refl.
  - intros f t kid ikm salt n K L. rewrite (held_eq _ _ _ _ K). rewrite cut_id; [reflexivity|]. cbn [p_extract toy2]. rewrite zlen_mixes; lia.
  - intros f t kid prk i n K L. rewrite (held_eq _ _ _ _ K). rewrite cut_id; [reflexivity|]. cbn [p_expand toy2]. rewrite zlen_mixes; lia.
  - intros f t kid key iv a x n K L. rewrite (held_eq _ _ _ _ K). rewrite cut_id; [reflexivity|]. cbn [p_enc toy2 toy]. rewrite zlen_app.
    unfold toy_tag. rewrite zlen_mixes; lia.
  - intros f t kid key iv a y x n K D L. rewrite (held_eq _ _ _ _ K). rewrite D. now rewrite cut_id.
  - intros f t x. rewrite cut_id; [reflexivity|]. cbn [p_hash toy2]. rewrite zlen_mixes; lia.
  - reflexivity.
  - intros. exists peer. split; [reflexivity|]. split; [exact HQ|]. split; reflexivity.
  - exact HK.
  - intros f t m n N. exists (firstn (Z.to_nat n) party_toks). split; [reflexivity|]. split; [unfold zlen; rewrite firstn_length; lia|].
    destruct (Z.to_nat n) as [|k]; cbn [firstn party_toks]; [repeat split; [constructor|constructor|cbn; lia]|]. rewrite firstn_nil.
    split; [constructor; [cbn; lia|constructor]|]. split; [constructor; [cbn; lia|constructor]|]. cbn. lia.
  - reflexivity.
Qed.
End Party.

(** Party 1 initiates, party 2 responds; their long-term keys are Diffie-Hellman keys and serve
    as signature keys as well. *)
Definition lk (p : Z) : bytes := toy_dh_pub (lt_of p).
Definition env_i : env := ready_env (party_creds 1) (lt_of 1) (lk 1) (party_creds 2) (lk 2).
Definition env_r : env := ready_env (party_creds 2) (lt_of 2) (lk 2) (party_creds 1) (lk 1).
Definition ready_i (meth : Z) : world := world_of (@runs env_i (setup_ead 1 meth) blank) blank.
Definition ready_r (meth : Z) : world := world_of (@runs env_r (setup_ead 2 meth) blank) blank.
Ltac method m := assert (m = 0 \/ m = 1 \/ m = 2 \/ m = 3) as [-> | [-> | [-> | ->]]] by lia.
Lemma prepared_check : forall (E : env) p meth, 0 <= meth <= 3 -> limits -> abides ->
  let l := setup_ead p meth in let w := world_of (runs l blank) blank in
  runs l blank = Ret (rs_of (runs l blank)) w -> carefulb l blank = true -> boundb (w_ctx w) = true -> config_only l = true ->
  returns (runs l blank) = true -> c_csuite_len (w_ctx w) = 1 -> my_suite (w_ctx w) = suite2 ->
  c_methods (w_ctx w) = [meth] -> c_csuites (w_ctx w) = [suite2] -> cid_rfc (c_cid (w_ctx w)) = cid_rfc (demo_cid p) ->
  prepared w suite2.
Proof.
  intros E p meth M HL HA l w H1 H2 H3 H4 H5 H6 H7 H8 H9 H10.
  split; [exact (careful_check (tl l) _ w H2 H1)|]. split; [exact (start_configured l H4 H5)|]. split; [now apply boundb_ok|].
  split; [exact HL|]. split; [exact HA|]. split; [lia|]. split; [exact H7|]. rewrite H8, H9, H10.
  split; [constructor; [unfold int32; lia|constructor]|]. split; [constructor; [unfold int32; cbn; lia|constructor]|].
  intros b. unfold cid_rfc, demo_cid. destruct (p =? 1); cbn; [discriminate|]. intros [= <-]. cbn. lia.
Qed.
Lemma ready_prepared : forall meth, 0 <= meth <= 3 -> @prepared env_i (ready_i meth) suite2 /\ @prepared env_r (ready_r meth) suite2.
Proof.
  intros meth H. split; (apply prepared_check; [exact H|apply ready_limits|apply ready_abides; apply party_fit; cbn; lia|..]); method meth; vm_compute; reflexivity.
Qed.
(** The two parties complete the handshake in every one of the four methods. *)
Lemma ready_pair : forall meth, 0 <= meth <= 3 -> cooperative env_i env_r (ready_i meth) (ready_r meth) suite2 (party_creds 1) (party_creds 2).
Proof.
  intros meth H. exists toy2, toy_valid, (lt_of 1), (lk 1), (lt_of 2), (lk 2), 8, 8.
  split; [exact toy2_correct|]. split; [exact toy2_sized|]. split; [apply ready_willing; [cbn; lia|apply party_usable; lia|cbn; lia]|]. split; [apply ready_willing; [cbn; lia|apply party_usable; lia|cbn; lia]|].
  split; [reflexivity|]. split; [reflexivity|]. unfold compatible. cbv zeta. 
  split; [exact (proj1 (ready_prepared meth H))|]. split; [exact (proj2 (ready_prepared meth H))|]. split; [exact suite2_modest|].
  split; [method meth; vm_compute; discriminate|]. split; [method meth; vm_compute; discriminate|]. split; [method meth; vm_compute; split; discriminate|].
  split; [exists 0; method meth; vm_compute; (split; [split; [discriminate|reflexivity]|reflexivity])|].
  split; [method meth; vm_compute; discriminate|]. split; [method meth; vm_compute; intros b [= <-]; discriminate|].
  split; [cbn; lia|]. split; [apply party_usable; lia|]. split; [intros i T; now apply (party_admits _ _ _ T)|].
  split; [apply party_usable; lia|]. split; [intros i T; now apply (party_admits _ _ _ T)|].
  split; [vm_compute; discriminate|]. split; [vm_compute; discriminate|]. method meth; vm_compute; discriminate.
Qed.

(** A responder whose certificate is identified by a hash with an algorithm of the private-use
    range (COSE: below -65536). *)
Definition wide_creds : creds := CR [2] COSE_HASH (CHash [50; 2] [9; 9; 9; 9; 9; 9; 9; 9] ENC_INT (-70000) []).
Definition env_wide : env := ready_env wide_creds (lt_of 2) (lk 2) (party_creds 1) (lk 1).
Definition wide_m1 : bytes := snd (last_out (@runs env_i (setup_ead 1 0 ++ [AM1Compose true 400]) blank)).
Definition wide_list : list api := setup_ead 2 0 ++ [AM1Process true wide_m1].
Definition wide_r : world := world_of (@runs env_wide wide_list blank) blank.
Lemma wide_travels : travels wide_creds (idcred_item (X5tNum (-70000) [9; 9; 9; 9; 9; 9; 9; 9])).
Proof. constructor. lia. Qed.
Lemma wide_ready : @limits env_wide /\ @abides env_wide /\ @careful_world env_wide wide_r /\ bound (w_ctx wide_r) /\
  @willing env_wide toy2 toy_valid suite2 wide_creds (lt_of 2) (lk 2) (party_creds 1) (lk 1) 8.
Proof.
  split; [apply ready_limits|]. split; [|split; [|split]].
  - apply ready_abides; [|apply party_fit; cbn; lia]. unfold creds_fit, wide_creds. cbn [cr_label cr_body].
    split; [discriminate|]. split; [discriminate|]. split; [discriminate|]. intros _. do 5 eexists. reflexivity.
  - refine (@careful_check env_wide (tl wide_list) (rs_of (@runs env_wide wide_list blank)) _ _ _); vm_compute; reflexivity.
  - apply boundb_ok. vm_compute. reflexivity.
  - apply ready_willing; [cbn; lia|apply party_usable; lia|cbn; lia].
Qed.

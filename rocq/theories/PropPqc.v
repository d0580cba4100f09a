(** Properties C56-C60: the experimental post-quantum suite (ML-KEM-512, ML-DSA-44).  Vocabulary
    in PqcSpec.v; [qrun a s] is a call through the tables of the suite (PqcCalls.v), [s] the state
    of the libraries below it and of its static slots (Psa.v). *)
From Verif Require Import Bytes Values Monad Psa SuitePqc SuiteCalls PqcCalls SuiteSpec PqcSpec PqcProofs PqcClaims PqcClaims2 DemoL.

Ltac each := match goal with |- _ /\ _ => split; [|each] | _ => idtac end.
Definition yes : libs := demo_libs (fun _ _ => 0).
(** Both slots taken, a third request refused, pairs, a key of every other purpose, every
    operation, and a slot given back. *)
Definition H0 : Z := 0x3ffffffe.
Definition H1 : Z := 0x3fffffff.
Definition calls : list qcall :=
  [QImport KT_MAKE_KEY_PAIR [] (Some 0); QMkPair (Some H0) (Some 1632) true (Some 800) true;
   QImport KT_MAKE_KEY_PAIR [] (Some 0); QImport KT_MAKE_KEY_PAIR [] (Some 0); QDestroy (Some H1);
   QDecaps (Some H0) (Some (fit 768 [5])) (Some 32) true; QEncaps (Some (fit 800 [0])) (Some 768) true (Some 32) true;
   QImport KT_SIGNATURE (repeat 5 2560) (Some 0); QSign (Some 0x40000000) (Some [1; 2]) (Some 2420) true;
   QImport KT_VERIFY (repeat 6 1312) (Some 0); QVerify (Some 0x40000001) (Some [1; 2]) (Some (fit 2420 [sum [1; 2]; 1; 2]));
   QVerify (Some 0x40000001) (Some [1; 2]) (Some [1]);
   QImport KT_EXTRACT (repeat 7 32) (Some 0); QExtract (Some 0x40000002) (Some [4]) (Some 64) true;
   QImport KT_EXPAND (repeat 8 64) (Some 0); QExpand (Some 0x40000003) (Some [4]) (Some 70);
   QImport KT_ENCRYPT (repeat 3 16) (Some 0); QEncrypt (Some 0x40000004) (Some (repeat 1 13)) [2] [7] (Some 17) true;
   QImport KT_DECRYPT (repeat 3 16) (Some 0); QHash (Some [1]) (Some 64) true; QImport KT_DECRYPT (repeat 3 15) (Some 0);
   QDestroy (Some 0x40000003); QDestroy (Some 0x40000003)].
Definition past : list (qcall * hout) := match @qruns yes calls qs0 with XRet h _ => h | XUb _ => [] end.
Definition after : xst := match @qruns yes calls qs0 with XRet _ s => s | XUb _ => qs0 end.
Example reached_now : @qreached yes past after /\
  map (fun e => ho_ret (snd e)) past = [OK; OK; OK; E_CRYPTO; OK; OK; OK; OK; OK; OK; OK; E_CRYPTO; OK; OK; OK; OK; OK; OK; OK; OK; E_CRYPTO; OK; E_CRYPTO].
Proof. split; [exists calls|]; vm_compute; reflexivity. Qed.
Example contracts : fresh_ids yes /\ qsized yes /\ willing yes /\ kem_correct yes yes.
Proof. split; [apply demo_fresh|]. split; [apply demo_qsized|]. split; [apply demo_willing|apply demo_kem]. Qed.

(** ** C56: handles *)
(** A handle handed out is not in use, for a pair or for another key. *)
Theorem C56_fresh : forall (L : libs) h s kt raw k id s', fresh_ids L -> qsized L -> qreached h s ->
  qrun (QImport kt raw k) s = XRet (HO OK (Some id) [] []) s' ->
  ~ open_slot h id /\ forall kt' raw', ~ qimported h id kt' raw'.
Proof. intros. eapply (import_fresh (L := L)); eauto. Qed.
Print Assumptions C56_fresh.
(** A handle for a key pair is granted exactly if fewer than two are open. *)
Theorem C56_two_pairs : forall (L : libs) h s raw k, qsized L -> qreached h s ->
  (exists id s', qrun (QImport KT_MAKE_KEY_PAIR raw (Some k)) s = XRet (HO OK (Some id) [] []) s')
  <-> ~ exists i j, i <> j /\ open_slot h i /\ open_slot h j.
Proof. intros. eapply (pair_capacity (L := L)); eauto. Qed.
Print Assumptions C56_two_pairs.
(** Other keys: exactly the sizes of [qimportable] can be imported. *)
Theorem C56_import_only : forall (L : libs) h s kt raw k id s', qreached h s ->
  qrun (QImport kt raw k) s = XRet (HO OK (Some id) [] []) s' -> kt = KT_MAKE_KEY_PAIR \/ qimportable kt raw.
Proof. exact @qimport_only. Qed.
Print Assumptions C56_import_only.
Theorem C56_import_accepted : forall (L : libs) h s kt raw k, willing L -> qreached h s -> zlen h < KEY_IDS -> qimportable kt raw ->
  exists id s', qrun (QImport kt raw (Some k)) s = XRet (HO OK (Some id) [] []) s'.
Proof. exact @qimport_willing. Qed.
Print Assumptions C56_import_accepted.
(** A refused import changes nothing and yields the null handle. *)
Theorem C56_import_failed : forall (L : libs) kt raw k s o s', qrun (QImport kt raw (Some k)) s = XRet o s' -> ho_ret o <> OK ->
  ho_kid o = Some 0 /\ x_keys s' = x_keys s /\ x_slots s' = x_slots s.
Proof. exact @import_failed. Qed.
Print Assumptions C56_import_failed.
(** Slots that are not open hold no trace of a key; the store holds exactly the imported keys. *)
Theorem C56_erased : forall (L : libs) h s id, qsized L -> qreached h s -> SLOT_BASE <= id < SLOT_BASE + MAX_SLOTS -> ~ open_slot h id ->
  nth (Z.to_nat (id - SLOT_BASE)) (x_slots s) slot0 = Sl false 0 [] 0.
Proof.
  intros L h s id Z R SH N. apply (slot_erased (L := L) Z h s id R); [|exact N]. unfold is_slot_handle. apply andb_true_iff. split; [apply Z.leb_le|apply Z.ltb_lt]; apply SH.
Qed.
Print Assumptions C56_erased.
Theorem C56_store : forall (L : libs) h s id, fresh_ids L -> qreached h s ->
  ((exists k, find_key id (x_keys s) = Some k) <-> exists kt raw, qimported h id kt raw).
Proof. intros. now apply (qstore (L := L)). Qed.
Print Assumptions C56_store.
(** Open handles can be destroyed; other identifiers outside the slot range are refused. *)
Theorem C56_destroy_pair : forall (L : libs) h s id, qsized L -> qreached h s -> open_slot h id ->
  exists s', qrun (QDestroy (Some id)) s = XRet (HO OK (Some 0) [] []) s'.
Proof. intros. eapply (destroy_pair (L := L)); eauto. Qed.
Print Assumptions C56_destroy_pair.
Theorem C56_destroy_key : forall (L : libs) h s id, fresh_ids L -> willing L -> qreached h s -> (exists kt raw, qimported h id kt raw) ->
  exists s', qrun (QDestroy (Some id)) s = XRet (HO OK (Some 0) [] []) s' /\ find_key id (x_keys s') = None.
Proof. intros. eapply (destroy_key (L := L)); eauto. Qed.
Print Assumptions C56_destroy_key.
Theorem C56_destroy_unknown_partial : forall (L : libs) h s id, fresh_ids L -> qreached h s ->
  ~ SLOT_BASE <= id < SLOT_BASE + MAX_SLOTS -> id <> 0 -> (forall kt raw, ~ qimported h id kt raw) ->
  exists s', qrun (QDestroy (Some id)) s = XRet (HO E_CRYPTO (Some 0) [] []) s'.
Proof. intros. eapply (destroy_unknown (L := L)); eauto. Qed.
Print Assumptions C56_destroy_unknown_partial.
(** The two slot handles are the gap: destroying one that is not open succeeds. *)
Theorem C56_destroy_unknown_refuted : exists (L : libs) h s id s', fresh_ids L /\ qsized L /\ qreached h s /\ id <> 0 /\
  ~ open_slot h id /\ (forall kt raw, ~ qimported h id kt raw) /\ qrun (QDestroy (Some id)) s = XRet (HO OK (Some 0) [] []) s'.
Proof.
  exists yes, [], qs0, H0, qs0. split; [apply contracts|]. split; [apply contracts|]. split; [exists []; reflexivity|]. split; [discriminate|].
  split; [intros (h1 & ? & ? & ? & E & _); destruct h1; discriminate E|].
  split; [intros ? ? (_ & h1 & ? & ? & E & _); destruct h1; discriminate E|vm_compute; reflexivity].
Qed.
Print Assumptions C56_destroy_unknown_refuted.

Example C56_example : open_slot past H0 /\ ~ open_slot past H1 /\ qimported past 0x40000000 KT_SIGNATURE (repeat 5 2560) /\
  (forall kt raw, ~ qimported past 0x40000003 kt raw) /\
  (exists s, @qrun yes (QImport KT_MAKE_KEY_PAIR [] (Some 0)) after = XRet (HO OK (Some H1) [] []) s) /\
  nth 0 (x_slots after) slot0 = Sl true KT_MAKE_KEY_PAIR (fit DK_LEN [0]) DK_LEN /\ nth 1 (x_slots after) slot0 = slot0.
Proof.
  each.
  - exists (firstn 0 past), (skipn 1 past), [], (Some 0). split; [vm_compute; reflexivity|]. intros o I. revert I. vm_compute.
    intros I; repeat (destruct I as [I|I]; [discriminate I|]); exact I.
  - assert (R : is_slot_handle H1 = true) by reflexivity. pose proof (slot_open (demo_qsized _) _ _ _ (proj1 reached_now) R) as Q.
    intros O. apply Q in O. revert O. vm_compute. discriminate.
  - split; [discriminate|]. exists (firstn 7 past), (skipn 8 past), (Some 0). split; [vm_compute; reflexivity|]. intros o I. exfalso. revert I. vm_compute.
    intros I; repeat (destruct I as [I|I]; [discriminate I|]); exact I.
  - intros kt raw I. assert (Q : exists kt raw, qimported past 0x40000003 kt raw) by eauto.
    apply (qstore (demo_fresh _) _ _ _ (proj1 reached_now)) in Q. destruct Q as [k Q]. revert Q. vm_compute. discriminate.
  - eexists. vm_compute. reflexivity.
  - vm_compute. reflexivity.
  - vm_compute. reflexivity.
Qed.

(** ** C57: what the operations compute *)
Theorem C57_pair : forall (L : libs) h kid np pl nu ul s o s', qsized L -> qreached h s ->
  qrun (QMkPair kid np pl nu ul) s = XRet o s' -> ho_ret o = OK ->
  exists id n u g, kid = Some id /\ np = Some n /\ nu = Some u /\ pl = true /\ ul = true /\ open_slot h id /\ DK_LEN <= n /\ EK_LEN <= u
    /\ (ho_2 o, ho_1 o) = x_kem_pair g.
Proof. intros. eapply (pair_ok (L := L)); eauto. Qed.
Print Assumptions C57_pair.
Theorem C57_pair_available : forall (L : libs) h s id n u, qsized L -> willing L -> qreached h s -> open_slot h id -> DK_LEN <= n -> EK_LEN <= u ->
  exists dk ek s', qrun (QMkPair (Some id) (Some n) true (Some u) true) s = XRet (HO OK None dk ek) s'.
Proof. intros. eapply (pair_willing (L := L)); eauto. Qed.
Print Assumptions C57_pair_available.
Theorem C57_encapsulate : forall (L : libs) peer ct cl ss sl s o s', qrun (QEncaps peer ct cl ss sl) s = XRet o s' -> ho_ret o = OK ->
  exists pk n k g, peer = Some pk /\ ct = Some n /\ ss = Some k /\ zlen pk = EK_LEN /\ CT_LEN <= n /\ SS_LEN <= k
    /\ (ho_1 o, ho_2 o) = x_encaps g pk.
Proof. exact @encaps_ok. Qed.
Print Assumptions C57_encapsulate.
Theorem C57_encapsulate_available : forall (L : libs) s pk n k, willing L -> zlen pk = EK_LEN -> CT_LEN <= n -> SS_LEN <= k ->
  exists g s', qrun (QEncaps (Some pk) (Some n) true (Some k) true) s = XRet (HO OK None (fst (x_encaps g pk)) (snd (x_encaps g pk))) s'.
Proof. exact @encaps_willing. Qed.
Print Assumptions C57_encapsulate_available.
Theorem C57_decapsulate : forall (L : libs) h kid ct ss sl s o s', fresh_ids L -> qsized L -> qreached h s ->
  qrun (QDecaps kid ct ss sl) s = XRet o s' -> ho_ret o = OK ->
  exists id c n dk, kid = Some id /\ ct = Some c /\ ss = Some n /\ material h id dk /\ zlen dk = DK_LEN /\ zlen c = CT_LEN /\ SS_LEN <= n
    /\ ho_1 o = x_decaps c dk.
Proof. intros. eapply (decaps_ok (L := L)); eauto. Qed.
Print Assumptions C57_decapsulate.
Theorem C57_decapsulate_available : forall (L : libs) h s id dk c n, fresh_ids L -> qsized L -> willing L -> qreached h s ->
  material h id dk -> zlen dk = DK_LEN -> zlen c = CT_LEN -> SS_LEN <= n ->
  exists s', qrun (QDecaps (Some id) (Some c) (Some n) true) s = XRet (HO OK None (x_decaps c dk) []) s'.
Proof. intros. eapply (decaps_willing (L := L)); eauto. Qed.
Print Assumptions C57_decapsulate_available.
Theorem C57_sign : forall (L : libs) h kid i n l s o s', fresh_ids L -> qsized L -> qreached h s ->
  qrun (QSign kid i n l) s = XRet o s' -> ho_ret o = OK ->
  exists id m k sk g, kid = Some id /\ i = Some m /\ n = Some k /\ material h id sk /\ zlen sk = SK_LEN /\ SIG_LEN <= k
    /\ ho_1 o = x_dsa_sign g m sk.
Proof. intros. eapply (sign_ok (L := L)); eauto. Qed.
Print Assumptions C57_sign.
Theorem C57_sign_available : forall (L : libs) h s id sk m n, fresh_ids L -> qsized L -> willing L -> qreached h s ->
  material h id sk -> zlen sk = SK_LEN -> SIG_LEN <= n ->
  exists g s', qrun (QSign (Some id) (Some m) (Some n) true) s = XRet (HO OK None (x_dsa_sign g m sk) []) s'.
Proof. intros. eapply (sign_willing (L := L)); eauto. Qed.
Print Assumptions C57_sign_available.
(** Success of a verification: the signature is valid under the key behind the handle. *)
Theorem C57_verify : forall (L : libs) h kid i sg s o s', fresh_ids L -> qsized L -> qreached h s ->
  qrun (QVerify kid i sg) s = XRet o s' -> ho_ret o = OK ->
  exists id m g pk, kid = Some id /\ i = Some m /\ sg = Some g /\ material h id pk /\ zlen pk = PK_LEN /\ x_dsa_ok m g pk = true.
Proof. intros. eapply (verify_ok (L := L)); eauto. Qed.
Print Assumptions C57_verify.
Theorem C57_verify_available : forall (L : libs) h s id pk m g, fresh_ids L -> qsized L -> willing L -> qreached h s ->
  material h id pk -> zlen pk = PK_LEN ->
  exists s', qrun (QVerify (Some id) (Some m) (Some g)) s = XRet (HO (if x_dsa_ok m g pk then OK else E_CRYPTO) None [] []) s'.
Proof. intros. eapply (verify_willing (L := L)); eauto. Qed.
Print Assumptions C57_verify_available.
Theorem C57_hash : forall (L : libs) i n l s o s', qrun (QHash i n l) s = XRet o s' -> ho_ret o = OK ->
  exists m k, i = Some m /\ n = Some k /\ HASH_LEN <= k /\ ho_1 o = x_shake m HASH_LEN.
Proof. exact @hash_ok. Qed.
Print Assumptions C57_hash.
Theorem C57_hash_available : forall (L : libs) s i n, HASH_LEN <= n ->
  qrun (QHash (Some i) (Some n) true) s = XRet (HO OK None (x_shake i HASH_LEN) []) s.
Proof. exact @hash_willing. Qed.
Print Assumptions C57_hash_available.
(** Key derivation is KMAC256 over whole strings: key and input are not cut. *)
Theorem C57_extract : forall (L : libs) h kid sa n l s o s', fresh_ids L -> qsized L -> qreached h s ->
  qrun (QExtract kid sa n l) s = XRet o s' -> ho_ret o = OK -> (forall b, sa = Some b -> zlen b < 2 ^ 61) ->
  exists id salt k ikm, kid = Some id /\ sa = Some salt /\ n = Some k /\ salt <> [] /\ material h id ikm /\ zlen ikm <= IKM_BUF /\ HASH_LEN <= k
    /\ ho_1 o = x_kmac salt ikm (8 * HASH_LEN) [].
Proof. intros. eapply (extract_ok (L := L)); eauto. Qed.
Print Assumptions C57_extract.
Theorem C57_extract_available : forall (L : libs) h s id ikm sa n, fresh_ids L -> qsized L -> willing L -> qreached h s ->
  material h id ikm -> zlen ikm <= IKM_BUF -> 0 < zlen sa < 2 ^ 61 -> HASH_LEN <= n ->
  exists s', qrun (QExtract (Some id) (Some sa) (Some n) true) s = XRet (HO OK None (x_kmac sa ikm (8 * HASH_LEN) []) []) s'.
Proof. intros. eapply (extract_willing (L := L)); eauto. Qed.
Print Assumptions C57_extract_available.
Theorem C57_expand : forall (L : libs) h kid i n s o s', fresh_ids L -> qsized L -> qreached h s ->
  qrun (QExpand kid i n) s = XRet o s' -> ho_ret o = OK ->
  (forall b, i = Some b -> zlen b < 2 ^ 61) -> (forall k, n = Some k -> 0 <= k < 2 ^ 61) ->
  exists id info k prk, kid = Some id /\ i = Some info /\ n = Some k /\ info <> [] /\ 0 < k /\ material h id prk /\ zlen prk <= HASH_LEN
    /\ ho_1 o = x_kmac prk info (8 * k) [].
Proof. intros. eapply (expand_ok (L := L)); eauto. Qed.
Print Assumptions C57_expand.
Theorem C57_expand_available : forall (L : libs) h s id prk i n, fresh_ids L -> qsized L -> willing L -> qreached h s ->
  material h id prk -> zlen prk <= HASH_LEN -> 0 < zlen i < 2 ^ 61 -> 0 < n < 2 ^ 61 ->
  exists s', qrun (QExpand (Some id) (Some i) (Some n)) s = XRet (HO OK None (x_kmac prk i (8 * n) []) []) s'.
Proof. intros. eapply (expand_willing (L := L)); eauto. Qed.
Print Assumptions C57_expand_available.
Theorem C57_encrypt : forall (L : libs) h kid iv ad p n l s o s', fresh_ids L -> qreached h s ->
  qrun (QEncrypt kid iv ad p n l) s = XRet o s' -> ho_ret o = OK ->
  exists id v k key, kid = Some id /\ iv = Some v /\ n = Some k /\ qimported h id KT_ENCRYPT key
    /\ ho_1 o = x_seal AesCcm 16 key v ad p /\ zlen (ho_1 o) <= k.
Proof. intros. eapply (encrypt_ok (L := L)); eauto. Qed.
Print Assumptions C57_encrypt.
Theorem C57_encrypt_available : forall (L : libs) h s id key iv ad p n, fresh_ids L -> willing L -> qreached h s ->
  qimported h id KT_ENCRYPT key -> zlen (x_seal AesCcm 16 key iv ad p) <= n ->
  exists s', qrun (QEncrypt (Some id) (Some iv) ad p (Some n) true) s = XRet (HO OK None (x_seal AesCcm 16 key iv ad p) []) s'.
Proof. intros. eapply (encrypt_willing (L := L)); eauto. Qed.
Print Assumptions C57_encrypt_available.
Theorem C57_decrypt : forall (L : libs) h kid iv ad c n l s o s', fresh_ids L -> qreached h s ->
  qrun (QDecrypt kid iv ad c n l) s = XRet o s' -> ho_ret o = OK ->
  exists id v x k key, kid = Some id /\ iv = Some v /\ c = Some x /\ n = Some k /\ qimported h id KT_DECRYPT key
    /\ x_open AesCcm 16 key v ad x = Some (ho_1 o) /\ zlen (ho_1 o) <= k.
Proof. intros. eapply (decrypt_ok (L := L)); eauto. Qed.
Print Assumptions C57_decrypt.
Theorem C57_decrypt_available : forall (L : libs) h s id key iv ad c p n, fresh_ids L -> willing L -> qreached h s ->
  qimported h id KT_DECRYPT key -> x_open AesCcm 16 key iv ad c = Some p -> zlen p <= n ->
  exists s', qrun (QDecrypt (Some id) (Some iv) ad (Some c) (Some n) true) s = XRet (HO OK None p []) s'.
Proof. intros. eapply (decrypt_willing (L := L)); eauto. Qed.
Print Assumptions C57_decrypt_available.

Example C57_example : holds_pair past H0 (fit 1632 [0]) /\ qimported past 0x40000001 KT_VERIFY (repeat 6 1312) /\
  qimported past 0x40000004 KT_ENCRYPT (repeat 3 16) /\
  map (fun e => firstn 3 (ho_1 (snd e))) (skipn 5 past) =
    [[5; 0; 0]; [2; 9; 0]; []; [68; 1; 2]; []; []; []; []; [25; 71; 4]; []; [7; 25; 8]; []; [7; 167; 174]; []; [22; 1; 0]; []; []; []].
Proof.
  each.
  - exists (firstn 1 past), (skipn 2 past). do 3 eexists. split; [vm_compute; reflexivity|]. split; [|intros ? ? ? ?]; intros o I; exfalso; revert I; vm_compute;
    intros I; repeat (destruct I as [I|I]; [discriminate I|]); exact I.
  - split; [discriminate|]. exists (firstn 9 past), (skipn 10 past), (Some 0). split; [vm_compute; reflexivity|]. intros o I. exfalso. revert I. vm_compute.
    intros I; repeat (destruct I as [I|I]; [discriminate I|]); exact I.
  - split; [discriminate|]. exists (firstn 16 past), (skipn 17 past), (Some 0). split; [vm_compute; reflexivity|]. intros o I. exfalso. revert I. vm_compute.
    intros I; repeat (destruct I as [I|I]; [discriminate I|]); exact I.
  - vm_compute. reflexivity.
Qed.

(** ** C58: arguments, codes, sizes *)
(** Every call returns, with one of four codes; refused arguments leave everything as it was. *)
Theorem C58_returns : forall (L : libs) a s, exists o s', qrun a s = XRet o s' /\ In (ho_ret o) [OK; E_INVALID_ARG; E_CRYPTO; E_TOO_SMALL]
  /\ (ho_ret o = E_INVALID_ARG \/ ho_ret o = E_TOO_SMALL -> s' = s).
Proof. exact @qcodes. Qed.
Print Assumptions C58_returns.
Theorem C58_incomplete : forall (L : libs) a s, qcomplete a = false -> qrun a s = XRet (HO E_INVALID_ARG None [] []) s.
Proof. exact @qrefuse. Qed.
Print Assumptions C58_incomplete.
Theorem C58_success : forall (L : libs) a s o s', qrun a s = XRet o s' -> ho_ret o = OK ->
  exists l, x_log s' = l ++ x_log s /\ Forall (fun e => snd e = 0) l.
Proof. exact @qsuccess. Qed.
Print Assumptions C58_success.
Theorem C58_outputs_fit : forall (L : libs) a s o s', qsized L -> qrun a s = XRet o s' ->
  (forall n, qroom_1 a = Some n -> 0 <= n -> zlen (ho_1 o) <= n) /\ (forall n, qroom_2 a = Some n -> 0 <= n -> zlen (ho_2 o) <= n).
Proof. intros L a s o s' Z E. exact (qoutput_fits (L := L) Z a s o s' E). Qed.
Print Assumptions C58_outputs_fit.

(** ** C59: two devices *)
Theorem C59_same_secret : forall (A B : libs) h s kid np pl nu ul dk ek id sB sB' nc ns ct ss sA' n o,
  kem_correct A B -> fresh_ids A -> qsized A -> @qreached A h s ->
  In (QMkPair kid np pl nu ul, HO OK None dk ek) h -> holds_pair h id dk ->
  @qrun B (QEncaps (Some ek) nc true ns true) sB = XRet (HO OK None ct ss) sB' ->
  @qrun A (QDecaps (Some id) (Some ct) (Some n) true) s = XRet o sA' -> ho_ret o = OK -> ho_1 o = ss.
Proof. intros. eapply (kem_agree A B); eauto. Qed.
Print Assumptions C59_same_secret.
Theorem C59_available : forall (A B : libs) h s kid np pl nu ul dk ek id sB sB' nc ns ct ss n,
  fresh_ids A -> qsized A -> willing A -> qsized B -> @qreached A h s ->
  In (QMkPair kid np pl nu ul, HO OK None dk ek) h -> holds_pair h id dk -> SS_LEN <= n ->
  @qrun B (QEncaps (Some ek) nc true ns true) sB = XRet (HO OK None ct ss) sB' ->
  exists k sA', @qrun A (QDecaps (Some id) (Some ct) (Some n) true) s = XRet (HO OK None k []) sA'.
Proof. intros. eapply (kem_available A B); eauto. Qed.
Print Assumptions C59_available.
Theorem C59_sealed_opens : forall (A B : libs) hA sA hB sB idA idB key iv ad p n ct sA' k o sB',
  (forall key iv ad p, @x_open B AesCcm 16 key iv ad (@x_seal A AesCcm 16 key iv ad p) = Some p) ->
  fresh_ids A -> fresh_ids B -> @qreached A hA sA -> @qreached B hB sB ->
  qimported hA idA KT_ENCRYPT key -> qimported hB idB KT_DECRYPT key ->
  @qrun A (QEncrypt (Some idA) (Some iv) ad p n true) sA = XRet (HO OK None ct []) sA' ->
  @qrun B (QDecrypt (Some idB) (Some iv) ad (Some ct) k true) sB = XRet o sB' -> ho_ret o = OK -> ho_1 o = p.
Proof. intros A B hA sA hB sB; intros. eapply (qsealed_opens A B) with (hA := hA) (hB := hB); eauto. Qed.
Print Assumptions C59_sealed_opens.

Example C59_example : In (QMkPair (Some H0) (Some 1632) true (Some 800) true, HO OK None (fit DK_LEN [0]) (fit EK_LEN [0])) past /\
  (exists s, @qrun yes (QEncaps (Some (fit EK_LEN [0])) (Some 768) true (Some 32) true) after
     = XRet (HO OK None (fit CT_LEN [zlen (x_log after); 9]) (fit SS_LEN [zlen (x_log after); 0])) s) /\
  (exists s, @qrun yes (QDecaps (Some H0) (Some (fit CT_LEN [zlen (x_log after); 9])) (Some 32) true) after
     = XRet (HO OK None (fit SS_LEN [zlen (x_log after); 0]) []) s).
Proof.
  each.
  - vm_compute. tauto.
  - eexists. vm_compute. reflexivity.
  - eexists. vm_compute. reflexivity.
Qed.

(** ** C60: purposes *)
(** Encryption and decryption keys serve nothing else. *)
Theorem C60_purpose_partial : forall (L : libs) h s id kt raw a o s', fresh_ids L -> qsized L -> qreached h s ->
  qimported h id kt raw -> kt = KT_ENCRYPT \/ kt = KT_DECRYPT -> qrun a s = XRet o s' -> ho_ret o = OK ->
  match a with
  | QDecaps k _ _ _ | QSign k _ _ _ | QVerify k _ _ | QExtract k _ _ _ | QExpand k _ _ | QMkPair k _ _ _ _ => k <> Some id
  | QEncrypt k _ _ _ _ _ => k = Some id -> kt = KT_ENCRYPT
  | QDecrypt k _ _ _ _ _ => k = Some id -> kt = KT_DECRYPT
  | _ => True
  end.
Proof. exact @purpose_partial. Qed.
Print Assumptions C60_purpose_partial.
(** Keys of the other purposes are interchangeable: bytes imported as a signature key decapsulate. *)
Theorem C60_purpose_refuted : exists (L : libs) h s id raw c o s', fresh_ids L /\ qsized L /\ qreached h s /\
  qimported h id KT_SIGNATURE raw /\ qrun (QDecaps (Some id) (Some c) (Some 32) true) s = XRet o s' /\ ho_ret o = OK.
Proof.
  exists yes, [(QImport KT_SIGNATURE (repeat 5 1632) (Some 0), HO OK (Some 0x40000000) [] [])]. eexists.
  exists 0x40000000, (repeat 5 1632), (repeat 1 768). do 2 eexists.
  split; [apply contracts|]. split; [apply contracts|]. split; [exists [QImport KT_SIGNATURE (repeat 5 1632) (Some 0)]; vm_compute; reflexivity|].
  split; [|split; [vm_compute; reflexivity|reflexivity]].
  split; [discriminate|]. exists [], [], (Some 0). split; [reflexivity|]. intros ? [].
Qed.
Print Assumptions C60_purpose_refuted.

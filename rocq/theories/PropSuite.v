(** Properties C47-C55: the ready-made cipher suites 0, 2, 4 and 24.  Vocabulary in SuiteSpec.v;
    [hrun S a s] is a call through the tables of suite [S] (SuiteCalls.v), [s] the state of the
    libraries below it (Psa.v). *)
From Coq Require Import Znumtheory.
From Verif Require Import Bytes Values Monad Psa SuiteX SuiteW SuiteCalls SuiteSpec SuiteStore SuiteOps SuiteClaims SuiteClaims2
  SuiteClaims3 SuiteClaims4 SuiteFit SuiteTable SuiteRows DemoL.

Ltac each := match goal with |- _ /\ _ => split; [|each] | _ => idtac end.
(** Libraries that never refuse, and ones that refuse the calls [f] picks. *)
Definition yes : libs := demo_libs (fun _ _ => 0).
Definition picky (f : xcall -> bool) : libs := demo_libs (fun _ c => if f c then -132 else 0).
(** A history of each kind of suite: keys for every purpose, a pair, and every operation. *)
Definition calls_x : list hcall :=
  [HImport KT_MAKE_KEY_PAIR [] (Some 0); HMkPair (Some 0) (Some 32) true (Some 32) true;
   HImport KT_KEY_AGREEMENT (fit 32 [0; 1; 2; 3]) (Some 0); HAgree (Some 0x40000000) (Some (repeat 9 32)) (Some 32) true;
   HImport KT_SIGNATURE (repeat 5 64) (Some 0); HSign (Some 0x40000001) (Some [1; 2]) (Some 64) true;
   HImport KT_VERIFY (repeat 6 32) (Some 0); HVerify (Some 0x40000002) (Some [1; 2]) (Some (fit 64 [sum [1; 2]; 1; 2]));
   HImport KT_EXTRACT (repeat 7 32) (Some 0); HExtract (Some 0x40000003) (Some [4]) (Some 32) true;
   HImport KT_EXPAND (repeat 8 32) (Some 0); HExpand (Some 0x40000004) (Some [4]) (Some 70);
   HImport KT_ENCRYPT (repeat 3 16) (Some 0); HEncrypt (Some 0x40000005) (Some (repeat 1 13)) (Some [2]) [] (Some 16) true;
   HImport KT_DECRYPT (repeat 3 16) (Some 0);
   HDecrypt (Some 0x40000006) (Some (repeat 1 13)) (Some [2]) (Some [167; 174; 23; 7; 0; 0; 0; 0]) 0 true;
   HDecrypt (Some 0x40000006) (Some (repeat 1 13)) (Some [2]) (Some [167; 174; 23; 8; 0; 0; 0; 0]) 0 true;
   HHash (Some [1]) (Some 32) true; HDestroy (Some 0x40000003)].
Definition calls_w : list hcall :=
  [HImport KT_MAKE_KEY_PAIR [] (Some 0); HMkPair (Some 0x40000000) (Some 32) true (Some 32) true;
   HImport KT_KEY_AGREEMENT (repeat 9 32) (Some 0); HAgree (Some 0x40000001) (Some (be 32 (fst (gen P256)))) (Some 32) true;
   HImport KT_SIGNATURE (repeat 5 32) (Some 0); HSign (Some 0x40000002) (Some [1; 2]) (Some 64) true;
   HImport KT_VERIFY (point P256 (fst (gen P256)) (snd (gen P256))) (Some 0);
   HImport KT_EXTRACT (repeat 7 32) (Some 0); HExtract (Some 0x40000004) (Some [4]) (Some 32) true;
   HImport KT_ENCRYPT (repeat 3 16) (Some 0); HEncrypt (Some 0x40000005) (Some (repeat 1 13)) (Some [2]) [7] (Some 16) true;
   HDestroy (Some 0x40000002); HDestroy (Some 0x40000002)].
Definition past {L : libs} (S : suite) (l : list hcall) : list (hcall * hout) :=
  match hruns S l xs0 with XRet h _ => h | XUb _ => [] end.
Definition left_by {L : libs} (S : suite) (l : list hcall) : xst :=
  match hruns S l xs0 with XRet _ s => s | XUb _ => xs0 end.
Definition rets (h : list (hcall * hout)) : list Z := map (fun e => ho_ret (snd e)) h.
Definition after_x : xst := @left_by yes (SX suite_0) calls_x.
Definition after_w : xst := @left_by yes (SW suite_2) calls_w.
Definition past_x : list (hcall * hout) := @past yes (SX suite_0) calls_x.
Definition past_w : list (hcall * hout) := @past yes (SW suite_2) calls_w.
Example reached_x : @reached yes (SX suite_0) past_x after_x /\
  rets past_x = [OK; OK; OK; OK; OK; OK; OK; OK; OK; OK; OK; OK; OK; OK; OK; OK; E_CRYPTO; OK; OK].
Proof. split; [exists calls_x|]; vm_compute; reflexivity. Qed.
Example reached_w : @reached yes (SW suite_2) past_w after_w /\
  rets past_w = [OK; OK; OK; OK; OK; OK; OK; OK; OK; OK; OK; OK; E_CRYPTO].
Proof. split; [exists calls_w|]; vm_compute; reflexivity. Qed.
Example contracts : fresh_ids yes /\ sized yes /\ willing yes /\ alike yes yes /\ (forall f, fresh_ids (picky f) /\ sized (picky f)).
Proof.
  split; [apply demo_fresh|]. split; [apply demo_sized|]. split; [apply demo_willing|]. split; [apply demo_alike|].
  intros f. split; [apply demo_fresh|apply demo_sized].
Qed.
Example ready_made : shipped (SX suite_0) /\ shipped (SX suite_4) /\ shipped (SW suite_2) /\ shipped (SW suite_24).
Proof. unfold shipped. cbn. tauto. Qed.

(** ** C47 *)
(** Success means that every call into the libraries succeeded. *)
Theorem C47_success : forall (L : libs) S a s o s', hrun S a s = XRet o s' -> ho_ret o = OK ->
  exists l, x_log s' = l ++ x_log s /\ Forall (fun e => snd e = 0) l.
Proof. exact @success. Qed.
Print Assumptions C47_success.
(** Three codes; the one for bad arguments means that nothing was done. *)
Theorem C47_codes : forall (L : libs) S a s o s', hrun S a s = XRet o s' ->
  (ho_ret o = OK \/ ho_ret o = E_INVALID_ARG \/ ho_ret o = E_CRYPTO) /\ (ho_ret o = E_INVALID_ARG -> s' = s).
Proof. exact @codes_only. Qed.
Print Assumptions C47_codes.
(** A call with a NULL pointer or an empty string where one is needed is refused; imports have
    no such check. *)
Theorem C47_incomplete : forall (L : libs) S a s, complete a = false -> (forall kt raw k, a <> HImport kt raw k) ->
  hrun S a s = XRet (HO E_INVALID_ARG None [] []) s.
Proof. exact @hrun_refuse. Qed.
Print Assumptions C47_incomplete.
(** Whichever single library call is refused while a session's calls run, the code says so. *)
Definition blames (f : xcall -> bool) (S : suite) (l : list hcall) : list Z := @rets (@past (picky f) S l).
Example C47_example :
  blames (fun c => match c with XInputKey _ => true | _ => false end) (SX suite_0) [HImport KT_EXTRACT [7] (Some 0); HExtract (Some 0x40000000) (Some [4]) (Some 32) true] = [OK; E_CRYPTO] /\
  blames (fun c => match c with XMpi => true | _ => false end) (SW suite_2) [HImport KT_KEY_AGREEMENT (repeat 9 32) (Some 0); HAgree (Some 0x40000000) (Some (repeat 9 32)) (Some 32) true] = [OK; E_CRYPTO] /\
  complete (HHash (Some []) (Some 32) true) = false /\ complete (HExtract (Some 1) None (Some 32) true) = false.
Proof. each; vm_compute; reflexivity. Qed.

(** ** C48 *)
(** After any history of calls, with any refusals, no library resource is left open. *)
Theorem C48_nothing_open : forall (L : libs) S h s, reached S h s -> closed s.
Proof. exact @reached_closed. Qed.
Print Assumptions C48_nothing_open.
Example C48_example : 
  @reached (picky (fun c => match c with XOutput => true | _ => false end)) (SX suite_0)
    (@past (picky (fun c => match c with XOutput => true | _ => false end)) (SX suite_0) calls_x)
    (@left_by (picky (fun c => match c with XOutput => true | _ => false end)) (SX suite_0) calls_x) /\
  blames (fun c => match c with XOutput => true | _ => false end) (SX suite_0) calls_x
    = [OK; OK; OK; OK; OK; OK; OK; OK; OK; E_CRYPTO; OK; E_CRYPTO; OK; OK; OK; OK; E_CRYPTO; OK; OK] /\
  existsb (fun e => match fst e with XSetup _ => true | _ => false end) (x_log after_x) = true /\
  existsb (fun e => match fst e with XPkSetup => true | _ => false end) (x_log after_w) = true.
Proof. split; [exists calls_x; vm_compute; reflexivity|]. each; vm_compute; reflexivity. Qed.

(** ** C49 *)
(** The store holds exactly the keys imported and not destroyed. *)
Theorem C49_store : forall (L : libs) S h s id, fresh_ids L -> reached S h s ->
  ((exists k, find_key id (x_keys s) = Some k) <-> exists kt raw, kept S kt /\ imported h id kt raw).
Proof. exact @store_exact. Qed.
Print Assumptions C49_store.
(** A new handle is not the handle of another key. *)
Theorem C49_import_fresh : forall (L : libs) S h s kt raw kid o s' id, fresh_ids L -> reached S h s -> kept S kt ->
  hrun S (HImport kt raw kid) s = XRet o s' -> ho_ret o = OK -> ho_kid o = Some id ->
  id <> 0 /\ (forall kt' raw', kept S kt' -> ~ imported h id kt' raw').
Proof. exact @import_fresh. Qed.
Print Assumptions C49_import_fresh.
(** A failed import stores nothing and hands out nothing. *)
Theorem C49_import_failed : forall (L : libs) S kt raw kid s o s', hrun S (HImport kt raw kid) s = XRet o s' -> ho_ret o <> OK ->
  x_keys s' = x_keys s /\ (ho_kid o = kid \/ ho_kid o = Some 0).
Proof. exact @import_failed. Qed.
Print Assumptions C49_import_failed.
(** Destroying removes this key and no other, and clears the caller's handle even on failure. *)
Theorem C49_destroy : forall (L : libs) S id s o s', hrun S (HDestroy (Some id)) s = XRet o s' ->
  ho_kid o = Some 0 /\ (forall i, i <> id -> find_key i (x_keys s') = find_key i (x_keys s))
  /\ (ho_ret o = OK -> id <> 0 -> find_key id (x_keys s') = None).
Proof. exact @destroy_clears. Qed.
Print Assumptions C49_destroy.
(** Exactly the right kinds of bytes can be imported. *)
Theorem C49_import_only : forall (L : libs) S s kt raw k o s', shipped S -> kept S kt ->
  hrun S (HImport kt raw k) s = XRet o s' -> ho_ret o = OK -> importable S kt raw.
Proof. exact @import_only. Qed.
Print Assumptions C49_import_only.
Theorem C49_import_accepted : forall (L : libs) S h s kt raw k, willing L -> shipped S -> reached S h s -> zlen h < KEY_IDS ->
  kept S kt -> importable S kt raw -> exists id s', hrun S (HImport kt raw (Some k)) s = XRet (HO OK (Some id) [] []) s'.
Proof. exact @import_willing. Qed.
Print Assumptions C49_import_accepted.
Example C49_example :
  map fst (x_keys after_x) = [0x40000006; 0x40000005; 0x40000004; 0x40000002; 0x40000001; 0x40000000] /\
  map fst (x_keys after_w) = [0x40000005; 0x40000004; 0x40000003; 0x40000001; 0x40000000] /\
  imported past_x 0x40000004 KT_EXPAND (repeat 8 32) /\ zlen past_x < KEY_IDS /\
  importable (SW suite_2) KT_VERIFY (point P256 (fst (gen P256)) (snd (gen P256))) /\
  @rets (@past yes (SW suite_2) [HImport KT_VERIFY (point P256 5 5) (Some 1); HImport KT_ENCRYPT [1] (Some 1); HImport 8 [1] (Some 1)])
    = [E_CRYPTO; E_CRYPTO; E_CRYPTO].
Proof.
  each; try (vm_compute; reflexivity).
  - exists (firstn 10 past_x), (skipn 11 past_x), (Some 0). split; [vm_compute; reflexivity|]. intros o I.
    exfalso. revert I. vm_compute. intros I. repeat (destruct I as [I|I]; [discriminate I|]). exact I.
  - left. right. left. split; [reflexivity|vm_compute; reflexivity].
Qed.

(** ** C50.  What a successful operation computes, from the key that was imported for it. *)
(** The algorithms and lengths of a ready-made suite are those registered for its value
    (SuiteTable.v). *)
Theorem C50_parameters : forall S, shipped S -> exists r, rfc_row (cs_value (table S)) = Some r /\
  aead_of S = r_aead r /\ hash_of S = r_hash r /\ curve_of S = r_curve r /\
  cs_key (table S) = r_key r /\ cs_tag (table S) = r_tag r /\ cs_iv (table S) = r_iv r /\
  cs_hash (table S) = hash_size (r_hash r) /\ cs_mac (table S) = r_mac r /\
  cs_ecc (table S) = r_coord r /\ cs_sign (table S) = 2 * r_coord r.
Proof. exact parameters. Qed.
Print Assumptions C50_parameters.
Theorem C50_extract : forall (L : libs) S h s id salt n o s', fresh_ids L -> reached S h s ->
  hrun S (HExtract (Some id) (Some salt) (Some n) true) s = XRet o s' -> ho_ret o = OK ->
  exists ikm, imported h id KT_EXTRACT ikm /\ n <= hash_size (hash_of S) /\ ho_1 o = take n (x_extract (hash_of S) salt ikm).
Proof. intros. eapply op_extract; eauto. Qed.
Print Assumptions C50_extract.
Theorem C50_expand : forall (L : libs) S h s id info n o s', fresh_ids L -> reached S h s ->
  hrun S (HExpand (Some id) (Some info) (Some n)) s = XRet o s' -> ho_ret o = OK ->
  exists prk, imported h id KT_EXPAND prk /\ ho_1 o = x_expand (hash_of S) prk info n.
Proof. intros. eapply op_expand; eauto. Qed.
Print Assumptions C50_expand.
Theorem C50_encrypt : forall (L : libs) S h s id iv ad p n o s', fresh_ids L -> shipped S -> reached S h s ->
  hrun S (HEncrypt (Some id) (Some iv) (Some ad) p (Some n) true) s = XRet o s' -> ho_ret o = OK ->
  exists key, imported h id KT_ENCRYPT key /\ zlen key = cs_key (table S)
    /\ ho_1 o = x_seal (aead_of S) (cs_tag (table S)) key iv ad p /\ zlen (ho_1 o) <= n.
Proof. intros. eapply op_encrypt; eauto. Qed.
Print Assumptions C50_encrypt.
Theorem C50_decrypt : forall (L : libs) S h s id iv ad c n o s', fresh_ids L -> shipped S -> reached S h s ->
  hrun S (HDecrypt (Some id) (Some iv) (Some ad) (Some c) n true) s = XRet o s' -> ho_ret o = OK ->
  exists key, imported h id KT_DECRYPT key /\ zlen key = cs_key (table S)
    /\ x_open (aead_of S) (cs_tag (table S)) key iv ad c = Some (ho_1 o) /\ zlen (ho_1 o) <= n.
Proof. intros. eapply op_decrypt; eauto. Qed.
Print Assumptions C50_decrypt.
Theorem C50_hash : forall (L : libs) S s i n o s',
  hrun S (HHash (Some i) (Some n) true) s = XRet o s' -> ho_ret o = OK -> ho_1 o = x_hash (hash_of S) i.
Proof. intros. eapply hash_ok; eauto. Qed.
Print Assumptions C50_hash.
(** Suites 0 and 4: X25519 and Ed25519. *)
Theorem C50_agreement_x : forall (L : libs) x h s id pk n o s', fresh_ids L -> shipped (SX x) -> reached (SX x) h s ->
  hrun (SX x) (HAgree (Some id) (Some pk) (Some n) true) s = XRet o s' -> ho_ret o = OK ->
  exists kt sk, (kt = KT_KEY_AGREEMENT \/ kt = KT_VERIFY) /\ imported h id kt sk /\ zlen sk = 32 /\ zlen pk = 32 /\ n = 32
    /\ ho_1 o = x_smult pk (prepare sk).
Proof. intros. eapply op_agree_x; eauto. Qed.
Print Assumptions C50_agreement_x.
Theorem C50_sign_x : forall (L : libs) x h s id m n o s', fresh_ids L -> shipped (SX x) -> reached (SX x) h s ->
  hrun (SX x) (HSign (Some id) (Some m) (Some n) true) s = XRet o s' -> ho_ret o = OK ->
  exists sk, imported h id KT_SIGNATURE sk /\ zlen sk = 64 /\ n = 64 /\ ho_1 o = x_ed_sign sk m.
Proof. intros. eapply op_sign_x; eauto. Qed.
Print Assumptions C50_sign_x.
Theorem C50_verify_x : forall (L : libs) x h s id m sg o s', fresh_ids L -> shipped (SX x) -> reached (SX x) h s ->
  hrun (SX x) (HVerify (Some id) (Some m) (Some sg)) s = XRet o s' -> ho_ret o = OK ->
  exists kt pk, (kt = KT_KEY_AGREEMENT \/ kt = KT_VERIFY) /\ imported h id kt pk /\ zlen pk = 32 /\ zlen sg = 64
    /\ x_ed_ok sg pk m = true.
Proof. intros. eapply op_verify_x; eauto. Qed.
Print Assumptions C50_verify_x.
(** Suites 2 and 24: ECDH, with a peer whose x-coordinate is on the curve, and ECDSA. *)
Theorem C50_agreement_w : forall (L : libs) w h s id pk n o s', fresh_ids L -> shipped (SW w) -> reached (SW w) h s ->
  hrun (SW w) (HAgree (Some id) (Some pk) (Some n) true) s = XRet o s' -> ho_ret o = OK ->
  exists sk y, imported h id KT_KEY_AGREEMENT sk /\ zlen pk = cv_len (ws_curve w) /\ n = cv_len (ws_curve w)
    /\ on_curve (ws_curve w) (unbe pk) y = true /\ ho_1 o = x_ecdh (ws_curve w) sk (unbe pk) y.
Proof. intros. eapply op_agree_w; eauto. Qed.
Print Assumptions C50_agreement_w.
Theorem C50_sign_w : forall (L : libs) w h s id m n o s', fresh_ids L -> shipped (SW w) -> reached (SW w) h s ->
  hrun (SW w) (HSign (Some id) (Some m) (Some n) true) s = XRet o s' -> ho_ret o = OK ->
  exists sk l, imported h id KT_SIGNATURE sk /\ n = cs_sign (table (SW w)) /\ zlen (ho_1 o) = n
    /\ ho_1 o = x_ecdsa l (ws_curve w) sk (x_hash (ws_hash w) m).
Proof. intros. eapply op_sign_w; eauto. Qed.
Print Assumptions C50_sign_w.
Theorem C50_verify_w : forall (L : libs) w h s id m sg o s', fresh_ids L -> shipped (SW w) -> reached (SW w) h s ->
  hrun (SW w) (HVerify (Some id) (Some m) (Some sg)) s = XRet o s' -> ho_ret o = OK ->
  exists pk, imported h id KT_VERIFY pk /\ point_ok (ws_curve w) pk = true /\ zlen sg = cs_sign (table (SW w))
    /\ x_ecdsa_ok (ws_curve w) pk (x_hash (ws_hash w) m) sg = true.
Proof. intros. eapply op_verify_w; eauto. Qed.
Print Assumptions C50_verify_w.
(** A key pair: the private key the handle stands for and, in a buffer of the size of a
    coordinate, the x-coordinate of its public point. *)
Theorem C50_pair_w : forall (L : libs) w h s id np nu o s', fresh_ids L -> sized L -> shipped (SW w) -> reached (SW w) h s ->
  hrun (SW w) (HMkPair (Some id) (Some np) true (Some nu) true) s = XRet o s' -> ho_ret o = OK ->
  (exists raw, imported h id KT_MAKE_KEY_PAIR raw) /\ zlen (ho_1 o) = cv_len (ws_curve w) /\ zlen (ho_1 o) <= np
  /\ (nu = cv_len (ws_curve w) ->
      exists x y, x_public (ws_curve w) (ho_1 o) = (x, y) /\ on_curve (ws_curve w) x y = true
        /\ zlen (ho_2 o) = nu /\ unbe (ho_2 o) = x).
Proof. intros. eapply op_mkpair_w; eauto. Qed.
Print Assumptions C50_pair_w.
(** The calls of [reached_x] and [reached_w] meet the premises; the results: *)
Example C50_example :
  map (fun e => ho_1 (snd e)) (firstn 2 (skipn 9 past_x)) = [[71; 25] ++ repeat 7 30; []] /\
  @x_extract yes Sha256 [4] (repeat 7 32) = [71; 25] ++ repeat 7 30 /\
  map (fun e => ho_1 (snd e)) (firstn 1 (skipn 3 past_w)) = [be 32 (fst (gen P256))] /\
  map (fun e => ho_2 (snd e)) (firstn 1 (skipn 1 past_w)) = [be 32 (fst (gen P256))].
Proof. each; vm_compute; reflexivity. Qed.

(** ** C51.  When the libraries refuse nothing, the operations are available: with the right key
    and sizes they succeed. *)
Theorem C51_extract : forall (L : libs) S h s id ikm salt n, fresh_ids L -> willing L -> shipped S -> reached S h s ->
  imported h id KT_EXTRACT ikm -> salt <> [] -> 0 < n <= hash_size (hash_of S) ->
  exists s', hrun S (HExtract (Some id) (Some salt) (Some n) true) s = XRet (HO OK None (take n (x_extract (hash_of S) salt ikm)) []) s'.
Proof. intros. eapply extract_willing; eauto. Qed.
Print Assumptions C51_extract.
Theorem C51_expand : forall (L : libs) S h s id prk info n, fresh_ids L -> willing L -> shipped S -> reached S h s ->
  imported h id KT_EXPAND prk -> info <> [] -> 0 < n <= 255 * hash_size (hash_of S) ->
  exists s', hrun S (HExpand (Some id) (Some info) (Some n)) s = XRet (HO OK None (x_expand (hash_of S) prk info n) []) s'.
Proof. intros. eapply expand_willing; eauto. Qed.
Print Assumptions C51_expand.
Theorem C51_encrypt : forall (L : libs) S h s id key iv ad p n, fresh_ids L -> sized L -> willing L -> shipped S -> reached S h s ->
  imported h id KT_ENCRYPT key -> iv <> [] -> ad <> [] -> zlen p + cs_tag (table S) <= n ->
  exists s', hrun S (HEncrypt (Some id) (Some iv) (Some ad) p (Some n) true) s
    = XRet (HO OK None (x_seal (aead_of S) (cs_tag (table S)) key iv ad p) []) s'.
Proof. intros. eapply encrypt_willing; eauto. Qed.
Print Assumptions C51_encrypt.
Theorem C51_decrypt : forall (L : libs) S h s id key iv ad c p n, fresh_ids L -> willing L -> shipped S -> reached S h s ->
  imported h id KT_DECRYPT key -> iv <> [] -> ad <> [] -> c <> [] ->
  x_open (aead_of S) (cs_tag (table S)) key iv ad c = Some p -> zlen p <= n ->
  exists s', hrun S (HDecrypt (Some id) (Some iv) (Some ad) (Some c) n true) s = XRet (HO OK None p []) s'.
Proof. intros. eapply decrypt_willing; eauto. Qed.
Print Assumptions C51_decrypt.
Theorem C51_hash : forall (L : libs) S s i n, sized L -> willing L -> i <> [] -> hash_size (hash_of S) <= n ->
  exists s', hrun S (HHash (Some i) (Some n) true) s = XRet (HO OK None (x_hash (hash_of S) i) []) s'.
Proof. intros. eapply hash_willing; eauto. Qed.
Print Assumptions C51_hash.
Theorem C51_agreement_x : forall (L : libs) x h s id sk pk, fresh_ids L -> willing L -> reached (SX x) h s ->
  imported h id KT_KEY_AGREEMENT sk -> zlen sk = 32 -> zlen pk = 32 ->
  exists s', hrun (SX x) (HAgree (Some id) (Some pk) (Some 32) true) s = XRet (HO OK None (x_smult pk (prepare sk)) []) s'.
Proof. intros. eapply agree_x_willing; eauto. Qed.
Print Assumptions C51_agreement_x.
Theorem C51_sign_x : forall (L : libs) x h s id sk m, fresh_ids L -> willing L -> reached (SX x) h s ->
  imported h id KT_SIGNATURE sk -> zlen sk = 64 -> m <> [] ->
  exists s', hrun (SX x) (HSign (Some id) (Some m) (Some 64) true) s = XRet (HO OK None (x_ed_sign sk m) []) s'.
Proof. intros. eapply sign_x_willing; eauto. Qed.
Print Assumptions C51_sign_x.
Theorem C51_verify_x : forall (L : libs) x h s id pk m sg, fresh_ids L -> willing L -> reached (SX x) h s ->
  imported h id KT_VERIFY pk -> zlen pk = 32 -> m <> [] -> zlen sg = 64 -> x_ed_ok sg pk m = true ->
  exists s', hrun (SX x) (HVerify (Some id) (Some m) (Some sg)) s = XRet (HO OK None [] []) s'.
Proof. intros. eapply verify_x_willing; eauto. Qed.
Print Assumptions C51_verify_x.
(** Every point of the curve is accepted as peer, given by its x-coordinate, and stands for
    itself or its negative: the square root the code computes exists. *)
Theorem C51_agreement_w : forall (L : libs) w h s id sk pk y, fresh_ids L -> sized L -> willing L -> shipped (SW w) ->
  reached (SW w) h s -> prime (cv_p (ws_curve w)) -> imported h id KT_KEY_AGREEMENT sk ->
  zlen pk = cv_len (ws_curve w) -> on_curve (ws_curve w) (unbe pk) y = true -> y <> 0 ->
  exists s' y', (y' = y \/ y' = cv_p (ws_curve w) - y)
   /\ hrun (SW w) (HAgree (Some id) (Some pk) (Some (cv_len (ws_curve w))) true) s
       = XRet (HO OK None (x_ecdh (ws_curve w) sk (unbe pk) y') []) s'.
Proof. intros. eapply agree_w_willing; eauto. Qed.
Print Assumptions C51_agreement_w.
Theorem C51_sign_w : forall (L : libs) w h s id sk m, fresh_ids L -> sized L -> willing L -> shipped (SW w) -> reached (SW w) h s ->
  imported h id KT_SIGNATURE sk -> m <> [] ->
  exists l s', hrun (SW w) (HSign (Some id) (Some m) (Some (cs_sign (table (SW w)))) true) s
    = XRet (HO OK None (x_ecdsa l (ws_curve w) sk (x_hash (ws_hash w) m)) []) s'.
Proof. intros. eapply sign_w_willing; eauto. Qed.
Print Assumptions C51_sign_w.
Theorem C51_verify_w : forall (L : libs) w h s id pk m sg, fresh_ids L -> sized L -> willing L -> shipped (SW w) -> reached (SW w) h s ->
  imported h id KT_VERIFY pk -> m <> [] -> zlen sg = cs_sign (table (SW w)) ->
  x_ecdsa_ok (ws_curve w) pk (x_hash (ws_hash w) m) sg = true ->
  exists s', hrun (SW w) (HVerify (Some id) (Some m) (Some sg)) s = XRet (HO OK None [] []) s'.
Proof. intros. eapply verify_w_willing; eauto. Qed.
Print Assumptions C51_verify_w.

(** ** C52.  A key works only for the purpose it was imported for. *)
Theorem C52_purpose_partial : forall (L : libs) S h s a id kt o s', fresh_ids L -> shipped S -> reached S h s ->
  handle_of a = Some id -> purpose a = Some kt -> hrun S a s = XRet o s' -> ho_ret o = OK ->
  (exists w, S = SW w) \/ In kt [KT_SIGNATURE; KT_EXTRACT; KT_EXPAND; KT_ENCRYPT; KT_DECRYPT] ->
  exists raw, imported h id kt raw.
Proof. intros. eapply purposes; eauto. Qed.
Print Assumptions C52_purpose_partial.
(** Missing: suites 0 and 4 take a key imported for verification as a key agreement key, and the
    other way round. *)
Theorem C52_purpose_refuted : exists (L : libs) S h s a id kt o s', fresh_ids L /\ sized L /\ shipped S /\ reached S h s /\
  handle_of a = Some id /\ purpose a = Some kt /\ hrun S a s = XRet o s' /\ ho_ret o = OK /\
  (exists raw, imported h id KT_VERIFY raw) /\ forall raw, ~ imported h id kt raw.
Proof.
  exists yes, (SX suite_0), (firstn 7 past_x), (@left_by yes (SX suite_0) (firstn 7 calls_x)),
    (HAgree (Some 0x40000002) (Some (repeat 9 32)) (Some 32) true), 0x40000002, KT_KEY_AGREEMENT,
    (HO OK None (9 :: repeat 15 30 ++ [79]) []). eexists.
  split; [apply contracts|]. split; [apply contracts|]. split; [apply ready_made|]. split; [exists (firstn 7 calls_x); vm_compute; reflexivity|].
  split; [reflexivity|]. split; [reflexivity|]. split; [vm_compute; reflexivity|]. split; [reflexivity|]. split.
  - exists (repeat 6 32), (firstn 6 past_x), [], (Some 0). split; [vm_compute; reflexivity|]. intros o [].
  - intros raw (h1 & h2 & k & E & _).
    assert (I : In (HImport KT_KEY_AGREEMENT raw k, HO OK (Some 0x40000002) [] []) (firstn 7 past_x)) by (rewrite E; apply in_elt).
    vm_compute in I. repeat (destruct I as [I|I]; [discriminate I|]). exact I.
Qed.
Print Assumptions C52_purpose_refuted.

(** ** C53.  No call faults, and outputs fit their buffers. *)
Theorem C53_no_fault_partial : forall (L : libs) S a s, shipped S -> sane S a -> exists o s', hrun S a s = XRet o s'.
Proof. intros. eapply no_fault; eauto. Qed.
Print Assumptions C53_no_fault_partial.
(** Missing: importing with a NULL handle dereferences it, and a public-key buffer larger than
    two coordinates makes suites 2 and 24 read beyond their array. *)
Theorem C53_null_handle_refuted : exists (L : libs) S a s, shipped S /\ hrun S a s = XUb UbNull.
Proof. exists yes, (SX suite_0), (HImport KT_EXTRACT [1] None), xs0. split; [apply ready_made|]. vm_compute. reflexivity. Qed.
Print Assumptions C53_null_handle_refuted.
Theorem C53_public_key_refuted : exists (L : libs) S h s kid np nu, fresh_ids L /\ sized L /\ shipped S /\ reached S h s /\
  hrun S (HMkPair kid (Some np) true (Some nu) true) s = XUb UbRead.
Proof.
  exists yes, (SW suite_2), past_w, after_w, (Some 0x40000000), 32, 65.
  split; [apply contracts|]. split; [apply contracts|]. split; [apply ready_made|]. split; [apply reached_w|]. vm_compute. reflexivity.
Qed.
Print Assumptions C53_public_key_refuted.
Theorem C53_outputs_fit : forall (L : libs) S a s o s', sized L -> shipped S -> hrun S a s = XRet o s' ->
  (forall n, room_1 a = Some n -> 0 <= n -> zlen (ho_1 o) <= n) /\ (forall n, room_2 a = Some n -> 0 <= n -> zlen (ho_2 o) <= n).
Proof. intros. eapply output_fits; eauto. Qed.
Print Assumptions C53_outputs_fit.
Example C53_example : Forall (sane (SX suite_0)) calls_x /\ Forall (sane (SW suite_2)) calls_w.
Proof. split; repeat constructor; try discriminate. Qed.

(** ** C54.  False: the X25519 suites hand out the all-zero secret that a peer can force with a
    point of small order. *)
Theorem C54_zero_secret_refuted : exists (L : libs) S h s id pk o s', fresh_ids L /\ sized L /\ shipped S /\ reached S h s /\
  hrun S (HAgree (Some id) (Some pk) (Some 32) true) s = XRet o s' /\ ho_ret o = OK /\ ho_1 o = zeros 32.
Proof.
  exists yes, (SX suite_0), past_x, after_x, 0x40000000, (zeros 32), (HO OK None (zeros 32) []). eexists.
  split; [apply contracts|]. split; [apply contracts|]. split; [apply ready_made|]. split; [apply reached_x|].
  split; [vm_compute; reflexivity|]. split; reflexivity.
Qed.
Print Assumptions C54_zero_secret_refuted.

(** ** C55.  Two devices, each with its own history of calls of the same suite. *)
Theorem C55_shared_secret : forall (A B : libs) S hA hB sA sB skA pkA skB pkB iA iB n m oA oB tA tB,
  alike A B -> shipped S -> fresh_ids A -> fresh_ids B -> sized A -> sized B ->
  @reached A S hA sA -> @reached B S hB sB ->
  made_pair S hA skA pkA -> made_pair S hB skB pkB ->
  imported hA iA KT_KEY_AGREEMENT skA -> imported hB iB KT_KEY_AGREEMENT skB ->
  @hrun A S (HAgree (Some iA) (Some pkB) (Some n) true) sA = XRet oA tA -> ho_ret oA = OK ->
  @hrun B S (HAgree (Some iB) (Some pkA) (Some m) true) sB = XRet oB tB -> ho_ret oB = OK ->
  ho_1 oA = ho_1 oB.
Proof. intros. eapply (shared_secret A B S hA hB sA sB); eauto. Qed.
Print Assumptions C55_shared_secret.
Theorem C55_sealed_opens : forall (A B : libs) S hA hB sA sB key iA iB iv ad p n m o tA,
  alike A B -> shipped S -> fresh_ids A -> fresh_ids B -> sized A -> willing B ->
  @reached A S hA sA -> @reached B S hB sB ->
  imported hA iA KT_ENCRYPT key -> imported hB iB KT_DECRYPT key ->
  @hrun A S (HEncrypt (Some iA) (Some iv) (Some ad) p (Some n) true) sA = XRet o tA -> ho_ret o = OK -> zlen p <= m ->
  exists tB, @hrun B S (HDecrypt (Some iB) (Some iv) (Some ad) (Some (ho_1 o)) m true) sB = XRet (HO OK None p []) tB.
Proof. intros. eapply (sealed_opens A B S hA hB sA sB); eauto. Qed.
Print Assumptions C55_sealed_opens.
Theorem C55_signed_verifies : forall (A B : libs) S hA hB sA sB sk pk iA iB m n o tA,
  shipped S -> fresh_ids A -> fresh_ids B -> sized A -> sized B -> willing B -> key_pair A B S sk pk ->
  @reached A S hA sA -> @reached B S hB sB ->
  imported hA iA KT_SIGNATURE sk -> imported hB iB KT_VERIFY pk ->
  @hrun A S (HSign (Some iA) (Some m) (Some n) true) sA = XRet o tA -> ho_ret o = OK ->
  exists tB, @hrun B S (HVerify (Some iB) (Some m) (Some (ho_1 o))) sB = XRet (HO OK None [] []) tB.
Proof. intros. eapply (signed_verifies A B S hA hB sA sB); eauto. Qed.
Print Assumptions C55_signed_verifies.
(** Both parties after the calls of [reached_x]; their pairs are the same since the toy
    randomness is. *)
Definition sk_x : bytes := fit 32 [0; 1; 2; 3].
Definition pk_x : bytes := prepare sk_x.
Example C55_example : made_pair (SX suite_0) past_x sk_x pk_x /\ imported past_x 0x40000000 KT_KEY_AGREEMENT sk_x /\
  imported past_x 0x40000005 KT_ENCRYPT (repeat 3 16) /\ imported past_x 0x40000006 KT_DECRYPT (repeat 3 16) /\
  imported past_x 0x40000001 KT_SIGNATURE (repeat 5 64) /\ imported past_x 0x40000002 KT_VERIFY (repeat 6 32) /\
  key_pair yes yes (SX suite_0) (repeat 5 64) (repeat 6 32) /\
  (exists o t, @hrun yes (SX suite_0) (HAgree (Some 0x40000000) (Some pk_x) (Some 32) true) after_x = XRet o t /\
    ho_ret o = OK /\ ho_1 o = [0; 2; 4; 6] ++ zeros 27 ++ [128]).
Proof.
  Local Ltac im i := exists (firstn i past_x), (skipn (S i) past_x), (Some 0); split; [vm_compute; reflexivity|]; intros o I;
    exfalso; revert I; vm_compute; intros I; repeat (destruct I as [I|I]; [discriminate I|]); exact I.
  each.
  - exists (Some 0), 32. vm_compute. tauto.
  - im 2%nat.
  - im 12%nat.
  - im 14%nat.
  - im 4%nat.
  - im 6%nat.
  - intros m. cbn [yes demo_libs x_ed_ok x_ed_sign]. apply same_refl.
  - eexists. eexists. split; [vm_compute; reflexivity|]. split; [reflexivity|vm_compute; reflexivity].
Qed.

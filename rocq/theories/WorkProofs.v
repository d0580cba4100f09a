(** Bounds on what a call asks for.  No code of /repo is modelled here. *)
From Verif Require Import Monad Api Common Msg1 Msg2 Msg3 Msg4 Exporter History Logic Frame Spec HistoryProofs Attempts AttemptProofs ExportProofs Burden Work Early.
From Coq Require Import Lia.

(** Costs as association lists; [left_of v c]: what is left of [v] after [c]. *)
Definition cost := list (work * nat).
Definition within (c v : cost) : bool := forallb (fun k => Nat.leb (look c k) (look v k)) works.
Definition left_of (v c : cost) : cost := map (fun k => (k, (look v k - look c k)%nat)) works.
Lemma in_works : forall k, In k works.
Proof. intros []; cbn; tauto. Qed.
Lemma within_le : forall c v, within c v = true -> forall k, (look c k <= look v k)%nat.
Proof. intros c v H k. unfold within in H. rewrite forallb_forall in H. apply PeanoNat.Nat.leb_le, H, in_works. Qed.
Lemma look_left : forall v c k, look (left_of v c) k = (look v k - look c k)%nat.
Proof. intros v c []; reflexivity. Qed.
Lemma amount_app : forall k a b, amount k (a ++ b) = (amount k a + amount k b)%nat.
Proof. intros. unfold amount. now rewrite filter_app, app_length. Qed.

Section Cost.
Context {E : env}.
(** What is known of method, role and message while a piece of a call runs. *)
Variable J : Z -> Z -> Z -> Prop.
Definition known (c : ctx) : Prop := J (c_chosen_method c) (c_role c) (c_message c).
(** [m] asks for at most [v]. *)
Definition atm (v : cost) {A} (m : M A) : Prop :=
  forall w a w', known (w_ctx w) -> m w = Ret a w' ->
  known (w_ctx w') /\ exists e, w_tr w' = e ++ w_tr w /\ forall k, (amount k e <= look v k)%nat.

Lemma atm_le : forall c v A (m : M A), atm c m -> within c v = true -> atm v m.
Proof.
  intros c v A m H L w a w' I R. destruct (H _ _ _ I R) as (I' & e & X & Y). split; [exact I'|]. exists e. split; [exact X|].
  intro k. pose proof (Y k). pose proof (within_le _ _ L k). lia.
Qed.
Lemma atm_bind : forall c v A B (m : M A) (k : A -> M B), atm c m -> within c v = true ->
  (forall a, atm (left_of v c) (k a)) -> atm v (bind m k).
Proof.
  intros c v A B m k H L K w b w' I R. apply bind_inv in R. destruct R as (a & w1 & R1 & R2).
  destruct (H _ _ _ I R1) as (I1 & e1 & X1 & Y1). destruct (K a _ _ _ I1 R2) as (I2 & e2 & X2 & Y2). split; [exact I2|].
  exists (e2 ++ e1). split; [rewrite X2, X1; apply app_assoc|]. intro z.
  rewrite amount_app. pose proof (Y1 z) as Z1. pose proof (Y2 z) as Z2. rewrite look_left in Z2. pose proof (within_le _ _ L z). lia.
Qed.
Lemma atm_free : forall v A B (m : M A) (k : A -> M B), atm [] m -> (forall a, atm v (k a)) -> atm v (bind m k).
Proof.
  intros v A B m k H K w b w' I R. apply bind_inv in R. destruct R as (a & w1 & R1 & R2).
  destruct (H _ _ _ I R1) as (I1 & e1 & X1 & Y1). destruct (K a _ _ _ I1 R2) as (I2 & e2 & X2 & Y2). split; [exact I2|].
  exists (e2 ++ e1). split; [rewrite X2, X1; apply app_assoc|]. intro z.
  rewrite amount_app. pose proof (Y1 z) as Z1. pose proof (Y2 z) as Z2. change (look [] z) with 0%nat in Z1. lia.
Qed.
Lemma atm_assoc : forall v A B C (m : M A) (k : A -> M B) (h : B -> M C),
  atm v (bind m (fun a => bind (k a) h)) -> atm v (bind (bind m k) h).
Proof. intros v A B C m k h H w c w' I R. apply (H w c w' I). unfold bind in *. destruct (m w); [exact R|discriminate]. Qed.
Lemma atm_retb : forall v A B (a : A) (k : A -> M B), atm v (k a) -> atm v (bind (ret a) k).
Proof. intros v A B a k H. exact H. Qed.
Lemma atm_getc : forall v B (k : ctx -> M B), (forall c, known c -> atm v (k c)) -> atm v (bind getc k).
Proof. intros v B k H w b w' I R. exact (H (w_ctx w) I w b w' I R). Qed.
Lemma atm_same : forall v A (m : M A), (forall w a w', m w = Ret a w' -> w' = w) -> atm v m.
Proof.
  intros v A m H w a w' I R. rewrite (H _ _ _ R). split; [exact I|]. exists []. split; [reflexivity|]. intro k. apply PeanoNat.Nat.le_0_l.
Qed.
Lemma ret_c : forall v A (a : A), atm v (ret a). Proof. intros. apply atm_same. intros ? ? ? R. now inversion R. Qed.
Lemma fault_c : forall v A u, atm v (@fault A u). Proof. intros. apply atm_same. intros ? ? ? R. discriminate. Qed.
Lemma trace_c : atm [] trace. Proof. intros. apply atm_same. intros ? ? ? R. now inversion R. Qed.
Lemma modify_c : forall f, (forall c, known c -> known (f c)) -> atm [] (modify f).
Proof.
  intros f F w a w' I R. inversion R; subst. split; [exact (F _ I)|]. exists []. split; [reflexivity|]. intro k. apply PeanoNat.Nat.le_0_l.
Qed.
Lemma check_c : forall b u, atm [] (check b u).
Proof. intros. apply atm_same. intros ? ? ? R. apply check_inv in R. now destruct R as [_ ->]. Qed.
Lemma need_c : forall A (o : option A) u, atm [] (need o u).
Proof. intros. apply atm_same. intros ? ? ? R. apply need_inv in R. now destruct R as [_ ->]. Qed.
Lemma emit_c : forall ev v, (forall k, (amount k [ev] <= look v k)%nat) -> atm v (emit ev).
Proof. intros ev v H w a w' I R. inversion R; subst. split; [exact I|]. exists [ev]. split; [reflexivity|exact H]. Qed.

Create HintDb atm discriminated.
#[local] Hint Constants Opaque : atm.
#[local] Hint Transparent bytes M : atm.
#[local] Hint Resolve ret_c fault_c trace_c check_c need_c : atm.
Ltac c_norm := lazymatch goal with
  | |- atm (left_of ?v ?c) _ => let x := eval vm_compute in (left_of v c) in change (left_of v c) with x
  | _ => idtac end.
Ltac c_mod := apply modify_c; let c := fresh in let K := fresh in intros c K; first [exact K | assumption | match goal with H : forall c, known c |- _ => apply H end].
Ltac c_step :=
  cbn [fst snd];
  lazymatch goal with
  | |- atm _ (bind (ret _) _) => apply atm_retb
  | |- atm _ (bind getc _) => apply atm_getc; intros
  | |- atm _ (bind (modify _) _) => apply atm_free; [c_mod|intro]
  | |- atm _ (modify _) => eapply atm_le; [c_mod|vm_compute; reflexivity]
  | |- atm _ (bind (bind _ _) _) => apply atm_assoc
  | |- atm _ (bind (if ?b then _ else _) _) => destruct b
  | |- atm _ (bind (match ?x with _ => _ end) _) => destruct x
  | |- atm _ (bind (let _ := _ in _) _) => cbv zeta
  | |- atm _ (bind _ _) => first
      [ apply atm_free; [solve [eauto 4 with atm nocore]|intro]
      | eapply atm_bind; [solve [eauto 4 with atm nocore]|vm_compute; reflexivity|intro; c_norm] ]
  | |- atm _ (ret _) => apply ret_c
  | |- atm _ (fault _) => apply fault_c
  | |- atm _ (fail _ _) => unfold fail
  | |- atm _ (failp _ _) => unfold failp
  | |- atm _ (if ?b then _ else _) => destruct b
  | |- atm _ (match ?x with _ => _ end) => destruct x
  | |- atm _ (let _ := _ in _) => cbv zeta
  | |- atm _ ((fun _ => _) _) => cbv beta
  | |- atm _ _ => eapply atm_le; [solve [eauto 4 with atm nocore]|vm_compute; reflexivity]
  end.
Ltac c_auto := repeat c_step.
Ltac c_ev k := intros; eapply (@emit_c _ [(k, 1%nat)]); let z := fresh in intro z; destruct z; vm_compute; repeat constructor.
Lemma emit_import : forall a b c d, atm [(WImport, 1%nat)] (emit (EvImport a b c d)). Proof. c_ev WImport. Qed.
Lemma emit_destroy : forall a b, atm [(WDestroy, 1%nat)] (emit (EvDestroy a b)). Proof. c_ev WDestroy. Qed.
Lemma emit_mkpair : forall a b c d, atm [(WMakePair, 1%nat)] (emit (EvMkPair a b c d)). Proof. c_ev WMakePair. Qed.
Lemma emit_agree : forall a b c d, atm [(WAgree, 1%nat)] (emit (EvAgree a b c d)). Proof. c_ev WAgree. Qed.
Lemma emit_sign : forall a b c d, atm [(WSign, 1%nat)] (emit (EvSign a b c d)). Proof. c_ev WSign. Qed.
Lemma emit_verify : forall a b c d, atm [(WVerify, 1%nat)] (emit (EvVerify a b c d)). Proof. c_ev WVerify. Qed.
Lemma emit_extract : forall a b c d, atm [(WExtract, 1%nat)] (emit (EvExtract a b c d)). Proof. c_ev WExtract. Qed.
Lemma emit_expand : forall a b c d f, atm [(WExpand, 1%nat)] (emit (EvExpand a b c d f)). Proof. c_ev WExpand. Qed.
Lemma emit_encrypt : forall a b c d f g, atm [(WEncrypt, 1%nat)] (emit (EvEncrypt a b c d f g)). Proof. c_ev WEncrypt. Qed.
Lemma emit_decrypt : forall a b c d f g, atm [(WDecrypt, 1%nat)] (emit (EvDecrypt a b c d f g)). Proof. c_ev WDecrypt. Qed.
Lemma emit_hash : forall a b c d, atm [(WHash, 1%nat)] (emit (EvHash a b c d)). Proof. c_ev WHash. Qed.
Lemma emit_fetch : forall a b, atm [(WFetch, 1%nat)] (emit (EvFetch a b)). Proof. c_ev WFetch. Qed.
Lemma emit_trust : forall a b c d, atm [(WTrust, 1%nat)] (emit (EvCredVerify a b c d)). Proof. c_ev WTrust. Qed.
Lemma emit_compose : forall a b c, atm [(WEad, 1%nat)] (emit (EvEadCompose a b c)). Proof. c_ev WEad. Qed.
Lemma emit_process : forall a b c, atm [(WEad, 1%nat)] (emit (EvEadProcess a b c)). Proof. c_ev WEad. Qed.
Lemma emit_alloc : forall a b c, atm [(WBlock, 1%nat)] (emit (EvAlloc a b c)). Proof. c_ev WBlock. Qed.
Lemma emit_free : forall a, atm [] (emit (EvFree a)).
Proof. intros. apply emit_c. intros []; vm_compute; repeat constructor. Qed.
#[local] Hint Resolve emit_import emit_destroy emit_mkpair emit_agree emit_sign emit_verify emit_extract emit_expand emit_encrypt
  emit_decrypt emit_hash emit_fetch emit_trust emit_compose emit_process emit_alloc emit_free : atm.
Lemma import_c : forall a b, atm [(WImport, 1%nat)] (call_import a b). Proof. intros. unfold call_import. c_auto. Qed.
Lemma destroy_c : forall a, atm [(WDestroy, 1%nat)] (call_destroy a). Proof. intros. unfold call_destroy. c_auto. Qed.
Lemma mkpair_c : forall a b c, atm [(WMakePair, 1%nat)] (call_mkpair a b c). Proof. intros. unfold call_mkpair, out_ok. c_auto. Qed.
Lemma agree_c : forall a b c, atm [(WAgree, 1%nat)] (call_agree a b c). Proof. intros. unfold call_agree, out_ok. c_auto. Qed.
Lemma sign_c : forall a b c, atm [(WSign, 1%nat)] (call_sign a b c). Proof. intros. unfold call_sign, out_ok. c_auto. Qed.
Lemma verify_c : forall a b c, atm [(WVerify, 1%nat)] (call_verify a b c). Proof. intros. unfold call_verify. c_auto. Qed.
Lemma extract_c : forall a b c, atm [(WExtract, 1%nat)] (call_extract a b c). Proof. intros. unfold call_extract, out_ok. c_auto. Qed.
Lemma expand_c : forall a b c, atm [(WExpand, 1%nat)] (call_expand a b c). Proof. intros. unfold call_expand, out_ok. c_auto. Qed.
Lemma encrypt_c : forall a b c d f, atm [(WEncrypt, 1%nat)] (call_encrypt a b c d f). Proof. intros. unfold call_encrypt, out_ok. c_auto. Qed.
Lemma decrypt_c : forall a b c d f, atm [(WDecrypt, 1%nat)] (call_decrypt a b c d f). Proof. intros. unfold call_decrypt, out_ok. c_auto. Qed.
Lemma hash_c : forall a b, atm [(WHash, 1%nat)] (call_hash a b). Proof. intros. unfold call_hash, out_ok. c_auto. Qed.
Lemma fetch_c : atm [(WFetch, 1%nat)] call_fetch. Proof. unfold call_fetch. c_auto. Qed.
Lemma cverify_c : forall a, atm [(WTrust, 1%nat)] (call_cverify a). Proof. intros. unfold call_cverify. c_auto. Qed.
Lemma ccompose_c : forall a b c, atm [(WEad, 1%nat)] (call_compose a b c). Proof. intros. unfold call_compose. c_auto. Qed.
Lemma cprocess_c : forall a b c, atm [(WEad, 1%nat)] (call_process a b c). Proof. intros. unfold call_process. c_auto. Qed.
Lemma alloc_c : forall a b, atm [(WBlock, 1%nat)] (alloc a b). Proof. intros. unfold alloc. c_auto. Qed.
Lemma free_c : forall a, atm [] (free a). Proof. intros. unfold free. c_auto. Qed.
Lemma get_suite_c : atm [] get_suite. Proof. unfold get_suite. c_auto. Qed.
#[local] Hint Resolve import_c destroy_c mkpair_c agree_c sign_c verify_c extract_c expand_c encrypt_c decrypt_c hash_c fetch_c
  cverify_c ccompose_c cprocess_c alloc_c free_c get_suite_c : atm.
Definition kdf_cost : cost := [(WBlock, 1%nat); (WExpand, 1%nat); (WImport, 1%nat); (WDestroy, 1%nat)].
Definition static_cost : cost := [(WBlock, 3%nat); (WExpand, 1%nat); (WAgree, 1%nat); (WExtract, 1%nat); (WImport, 3%nat); (WDestroy, 3%nat)].
Definition own_cost : cost := [(WBlock, 3%nat); (WExpand, 1%nat); (WAgree, 1%nat); (WExtract, 1%nat); (WImport, 2%nat); (WDestroy, 2%nat)].
Lemma rd_c : forall a b c, atm [] (rd a b c).
Proof. intros. unfold rd. c_auto. Qed.
#[local] Hint Resolve rd_c : atm.
Lemma rd_ptr_c : forall a b, atm [] (rd_ptr a b).
Proof. intros. unfold rd_ptr. c_auto. Qed.
#[local] Hint Resolve rd_ptr_c : atm.
Lemma rd_tok_c : forall a b, atm [] (rd_tok a b).
Proof. intros. unfold rd_tok. c_auto. Qed.
#[local] Hint Resolve rd_tok_c : atm.
Lemma get_th_c : atm [] (get_th).
Proof. intros. unfold get_th. c_auto. Qed.
#[local] Hint Resolve get_th_c : atm.
Lemma get_prk_c : atm [] (get_prk).
Proof. intros. unfold get_prk. c_auto. Qed.
#[local] Hint Resolve get_prk_c : atm.
Lemma get_dh_pub_c : atm [] (get_dh_pub).
Proof. intros. unfold get_dh_pub. c_auto. Qed.
#[local] Hint Resolve get_dh_pub_c : atm.
Lemma get_dh_priv_c : atm [] (get_dh_priv).
Proof. intros. unfold get_dh_priv. c_auto. Qed.
#[local] Hint Resolve get_dh_priv_c : atm.
Lemma get_dh_peer_c : atm [] (get_dh_peer).
Proof. intros. unfold get_dh_peer. c_auto. Qed.
#[local] Hint Resolve get_dh_peer_c : atm.
Lemma get_dh_secret_c : atm [] (get_dh_secret).
Proof. intros. unfold get_dh_secret. c_auto. Qed.
#[local] Hint Resolve get_dh_secret_c : atm.
Lemma put_th_c : forall a, atm [] (put_th a).
Proof. intros. unfold put_th, wr. c_auto. Qed.
#[local] Hint Resolve put_th_c : atm.
Lemma put_prk_c : forall a, atm [] (put_prk a).
Proof. intros. unfold put_prk, wr. c_auto. Qed.
#[local] Hint Resolve put_prk_c : atm.
Lemma put_dh_pub_c : forall a, atm [] (put_dh_pub a).
Proof. intros. unfold put_dh_pub, wr. c_auto. Qed.
#[local] Hint Resolve put_dh_pub_c : atm.
Lemma put_dh_priv_c : forall a, atm [] (put_dh_priv a).
Proof. intros. unfold put_dh_priv, wr. c_auto. Qed.
#[local] Hint Resolve put_dh_priv_c : atm.
Lemma put_dh_peer_c : forall a, atm [] (put_dh_peer a).
Proof. intros. unfold put_dh_peer, wr. c_auto. Qed.
#[local] Hint Resolve put_dh_peer_c : atm.
Lemma put_dh_secret_c : forall a, atm [] (put_dh_secret a).
Proof. intros. unfold put_dh_secret, wr. c_auto. Qed.
#[local] Hint Resolve put_dh_secret_c : atm.
Lemma frees_c : forall l, atm [] (frees l).
Proof. induction l; cbn [frees]; c_auto. Qed.
#[local] Hint Resolve frees_c : atm.
Lemma comp_id_cred_len_c : forall a, atm [] (comp_id_cred_len a).
Proof. intros. unfold comp_id_cred_len. c_auto. Qed.
#[local] Hint Resolve comp_id_cred_len_c : atm.
Lemma comp_cred_len_c : forall a, atm [] (comp_cred_len a).
Proof. intros. unfold comp_cred_len. c_auto. Qed.
#[local] Hint Resolve comp_cred_len_c : atm.
Lemma read_toks_c : forall p l, atm [] (read_toks p l).
Proof. induction l; cbn [read_toks]; c_auto. Qed.
#[local] Hint Resolve read_toks_c : atm.
Lemma encode_tokens_c : forall p n l, atm [] (encode_tokens p n l).
Proof. intros. unfold encode_tokens. c_auto. Qed.
#[local] Hint Resolve encode_tokens_c : atm.
Lemma kid_compact_encoding_c : forall a, atm [] (kid_compact_encoding a).
Proof. intros. unfold kid_compact_encoding. c_auto. Qed.
#[local] Hint Resolve kid_compact_encoding_c : atm.
Lemma id_cred_of_c : forall a, atm [] (id_cred_of a).
Proof. intros. unfold id_cred_of. c_auto. Qed.
#[local] Hint Resolve id_cred_of_c : atm.
Lemma cred_bytes_c : forall a n, atm [] (cred_bytes a n).
Proof. intros. unfold cred_bytes. c_auto. Qed.
#[local] Hint Resolve cred_bytes_c : atm.
Lemma comp_mac_context_length_c : forall a, atm [] (comp_mac_context_length a).
Proof. intros. unfold comp_mac_context_length. c_auto. Qed.
#[local] Hint Resolve comp_mac_context_length_c : atm.
Lemma comp_mac_context_c : forall a n, atm [] (comp_mac_context a n).
Proof. intros. unfold comp_mac_context. c_auto. Qed.
#[local] Hint Resolve comp_mac_context_c : atm.
Lemma comp_mac_length_c : atm [] (comp_mac_length).
Proof. intros. unfold comp_mac_length. c_auto. Qed.
#[local] Hint Resolve comp_mac_length_c : atm.
Lemma comp_sign_or_mac_length_c : atm [] (comp_sign_or_mac_length).
Proof. intros. unfold comp_sign_or_mac_length. c_auto. Qed.
#[local] Hint Resolve comp_sign_or_mac_length_c : atm.
Lemma comp_mac_c : forall m n, atm kdf_cost (comp_mac m n).
Proof. intros. unfold comp_mac. c_auto. Qed.
#[local] Hint Resolve comp_mac_c : atm.
Lemma sign_cose_sign_1_c : forall a m b n, atm [(WBlock, 1%nat);(WSign, 1%nat)] (sign_cose_sign_1 a m b n).
Proof. intros. unfold sign_cose_sign_1. c_auto. Qed.
#[local] Hint Resolve sign_cose_sign_1_c : atm.
Lemma verify_cose_sign_1_c : forall m a b c, atm [(WBlock, 1%nat);(WVerify, 1%nat);(WImport, 1%nat);(WDestroy, 1%nat)] (verify_cose_sign_1 m a b c).
Proof. intros. unfold verify_cose_sign_1. c_auto. Qed.
#[local] Hint Resolve verify_cose_sign_1_c : atm.
Definition no_sign : Prop := forall m r x, J m r x -> Common.signs x m <> Some true.
Lemma comp_sign_or_mac_c : forall a m b n, atm [(WBlock, 1%nat);(WSign, 1%nat)] (comp_sign_or_mac a m b n).
Proof. intros. unfold comp_sign_or_mac. c_auto. Qed.
Lemma comp_sign_or_mac_0 : no_sign -> forall a m b n, atm [] (comp_sign_or_mac a m b n).
Proof.
  intros N a m b n. unfold comp_sign_or_mac. destruct (_ || _); [apply ret_c|]. apply atm_getc. intros c C.
  destruct (Common.signs (c_message c) (c_chosen_method c)) as [[]|] eqn:S; [destruct (N _ _ _ C S)| |]; c_auto.
Qed.
#[local] Hint Resolve comp_sign_or_mac_c comp_sign_or_mac_0 : atm.
Lemma verify_sign_or_mac_c : forall m a b c, atm [(WBlock, 1%nat);(WVerify, 1%nat);(WImport, 1%nat);(WDestroy, 1%nat)] (verify_sign_or_mac m a b c).
Proof. intros. unfold verify_sign_or_mac. c_auto. Qed.
Lemma verify_sign_or_mac_0 : no_sign -> forall m a b c, atm [] (verify_sign_or_mac m a b c).
Proof.
  intros N m a b d. unfold verify_sign_or_mac. destruct (_ || _); [apply ret_c|]. apply atm_getc. intros c C.
  destruct (Common.signs (c_message c) (c_chosen_method c)) as [[]|] eqn:S; [destruct (N _ _ _ C S)| |]; c_auto.
Qed.
#[local] Hint Resolve verify_sign_or_mac_c verify_sign_or_mac_0 : atm.
Lemma hash_into_th_c : forall i _n, atm [(WHash, 1%nat)] (hash_into_th _n i).
Proof. intros. unfold hash_into_th. c_auto. Qed.
#[local] Hint Resolve hash_into_th_c : atm.
Lemma kdf_c : forall x len l cx k n, atm [] cx -> atm [] k -> atm kdf_cost (kdf x len l cx k n).
Proof. intros. unfold kdf. c_auto. Qed.
#[local] Hint Resolve kdf_c : atm.
Lemma gen_dh_keys_c : atm [(WMakePair, 1%nat);(WImport, 1%nat);(WDestroy, 1%nat)] (gen_dh_keys).
Proof. intros. unfold gen_dh_keys. c_auto. Qed.
#[local] Hint Resolve gen_dh_keys_c : atm.
Lemma comp_dh_secret_c : atm [(WAgree, 1%nat);(WImport, 1%nat);(WDestroy, 1%nat)] (comp_dh_secret).
Proof. intros. unfold comp_dh_secret. c_auto. Qed.
#[local] Hint Resolve comp_dh_secret_c : atm.
Lemma comp_th_2_c : atm [(WBlock, 1%nat);(WHash, 1%nat)] (comp_th_2).
Proof. intros. unfold comp_th_2. c_auto. Qed.
#[local] Hint Resolve comp_th_2_c : atm.
Lemma comp_prk_2e_c : atm [(WExtract, 1%nat);(WImport, 1%nat);(WDestroy, 1%nat)] (comp_prk_2e).
Proof. intros. unfold comp_prk_2e. c_auto. Qed.
#[local] Hint Resolve comp_prk_2e_c : atm.
Lemma comp_salt_3e2m_c : forall n, atm kdf_cost (comp_salt_3e2m n).
Proof. intros. unfold comp_salt_3e2m. c_auto. Qed.
#[local] Hint Resolve comp_salt_3e2m_c : atm.
Lemma agree_eph_c : forall p _n, atm [(WAgree, 1%nat);(WImport, 1%nat);(WDestroy, 1%nat)] (agree_eph p _n).
Proof. intros. unfold agree_eph. c_auto. Qed.
#[local] Hint Resolve agree_eph_c : atm.
Lemma agree_static_c : forall a _n, atm [(WAgree, 1%nat)] (agree_static a _n).
Proof. intros. unfold agree_static. c_auto. Qed.
#[local] Hint Resolve agree_static_c : atm.
Definition in_role (ro : Z) : Prop := forall m r x, J m r x -> r = ro.
Lemma comp_grx_i : forall a b _n, atm [(WAgree, 1%nat);(WImport, 1%nat);(WDestroy, 1%nat)] (comp_grx a b _n).
Proof. intros. unfold comp_grx. c_auto. Qed.
Lemma comp_grx_r : in_role RESPONDER -> forall a b _n, atm [(WAgree, 1%nat)] (comp_grx a b _n).
Proof.
  intros N a b n. unfold comp_grx. destruct (n =? 0); [apply ret_c|]. apply atm_getc. intros c C. rewrite (N _ _ _ C).
  change (RESPONDER =? INITIATOR) with false. cbv iota. c_auto.
Qed.
Lemma prk_static_c : forall s' g n, (forall z, atm kdf_cost (s' z)) -> (forall z, atm [(WAgree, 1%nat);(WImport, 1%nat);(WDestroy, 1%nat)] (g z)) -> atm static_cost (prk_static s' g n).
Proof. intros. unfold prk_static. c_auto. Qed.
Lemma prk_own_c : forall s' g n, (forall z, atm kdf_cost (s' z)) -> (forall z, atm [(WAgree, 1%nat)] (g z)) -> atm own_cost (prk_static s' g n).
Proof. intros. unfold prk_static. c_auto. Qed.
Definition no_static_2 : Prop := forall m r x, J m r x -> (m =? 1) || (m =? 3) = false.
Lemma comp_prk_3e2m_i : in_role INITIATOR -> forall a b, atm static_cost (comp_prk_3e2m a b).
Proof. intros N a b. unfold comp_prk_3e2m. c_auto. apply prk_static_c; [apply comp_salt_3e2m_c|apply comp_grx_i]. Qed.
Lemma comp_prk_3e2m_r : in_role RESPONDER -> forall a b, atm own_cost (comp_prk_3e2m a b).
Proof. intros N a b. unfold comp_prk_3e2m. c_auto. apply prk_own_c; [apply comp_salt_3e2m_c|apply comp_grx_r, N]. Qed.
Lemma comp_prk_3e2m_0 : no_static_2 -> forall a b, atm [] (comp_prk_3e2m a b).
Proof.
  intros N a b. unfold comp_prk_3e2m. apply atm_getc. intros c C. cbv zeta. rewrite (N _ _ _ C). c_auto.
Qed.
#[local] Hint Resolve comp_prk_3e2m_i comp_prk_3e2m_r comp_prk_3e2m_0 : atm.
Lemma comp_plaintext_len_c : forall m n, atm [] (comp_plaintext_len m n).
Proof. intros. unfold comp_plaintext_len. c_auto. Qed.
#[local] Hint Resolve comp_plaintext_len_c : atm.
Lemma fill_plaintext_c : forall a b c n, atm [] (fill_plaintext a b c n).
Proof. intros. unfold fill_plaintext. c_auto. Qed.
#[local] Hint Resolve fill_plaintext_c : atm.
Lemma prepare_plaintext_2_c : forall a b n, atm [] (prepare_plaintext_2 a b n).
Proof. intros. unfold prepare_plaintext_2. c_auto. Qed.
#[local] Hint Resolve prepare_plaintext_2_c : atm.
Lemma comp_keystream_c : forall a n, atm kdf_cost (comp_keystream a n).
Proof. intros. unfold comp_keystream. c_auto. Qed.
#[local] Hint Resolve comp_keystream_c : atm.
Lemma prepare_message_2_c : forall a n, atm [(WBlock, 1%nat)] (prepare_message_2 a n).
Proof. intros. unfold prepare_message_2. c_auto. Qed.
#[local] Hint Resolve prepare_message_2_c : atm.
Lemma comp_ciphertext_2_len_c : forall m, atm [] (comp_ciphertext_2_len m).
Proof. intros. unfold comp_ciphertext_2_len. c_auto. Qed.
#[local] Hint Resolve comp_ciphertext_2_len_c : atm.
Lemma parse_msg_2_c : forall m n, atm [] (parse_msg_2 m n).
Proof. intros. unfold parse_msg_2. c_auto. Qed.
#[local] Hint Resolve parse_msg_2_c : atm.
Lemma parse_id_cred_c : forall b i, atm [] (parse_id_cred b i).
Proof. intros. unfold parse_id_cred. c_auto. Qed.
#[local] Hint Resolve parse_id_cred_c : atm.
Lemma store_tokens_c : forall l, atm [] (store_tokens l).
Proof. intros. unfold store_tokens. c_auto. Qed.
#[local] Hint Resolve store_tokens_c : atm.
Lemma store_peer_cid_c : forall l, atm [] (store_peer_cid l).
Proof. intros. unfold store_peer_cid. c_auto. Qed.
#[local] Hint Resolve store_peer_cid_c : atm.
Lemma parse_plaintext_2_c : forall p, atm [] (parse_plaintext_2 p).
Proof. intros. unfold parse_plaintext_2. c_auto. Qed.
#[local] Hint Resolve parse_plaintext_2_c : atm.
Lemma comp_th_next_c : forall a b s m p, atm [(WBlock, 1%nat);(WHash, 1%nat)] (comp_th_next a b s m p).
Proof. intros. unfold comp_th_next. c_auto. Qed.
#[local] Hint Resolve comp_th_next_c : atm.
Lemma comp_th_3_c : forall m p, atm [(WBlock, 1%nat);(WHash, 1%nat)] (comp_th_3 m p).
Proof. intros. unfold comp_th_3. c_auto. Qed.
#[local] Hint Resolve comp_th_3_c : atm.
Lemma comp_th_4_c : forall m p, atm [(WBlock, 1%nat);(WHash, 1%nat)] (comp_th_4 m p).
Proof. intros. unfold comp_th_4. c_auto. Qed.
#[local] Hint Resolve comp_th_4_c : atm.
Lemma comp_salt_4e3m_c : forall n, atm kdf_cost (comp_salt_4e3m n).
Proof. intros. unfold comp_salt_4e3m. c_auto. Qed.
#[local] Hint Resolve comp_salt_4e3m_c : atm.
Lemma comp_giy_r : forall a b _n, atm [(WAgree, 1%nat);(WImport, 1%nat);(WDestroy, 1%nat)] (comp_giy a b _n).
Proof. intros. unfold comp_giy. c_auto. Qed.
Lemma comp_giy_i : in_role INITIATOR -> forall a b _n, atm [(WAgree, 1%nat)] (comp_giy a b _n).
Proof.
  intros N a b n. unfold comp_giy. destruct (n =? 0); [apply ret_c|]. apply atm_getc. intros c C. rewrite (N _ _ _ C).
  change (INITIATOR =? INITIATOR) with true. cbv iota. c_auto.
Qed.
Definition no_static_3 : Prop := forall m r x, J m r x -> (m =? 2) || (m =? 3) = false.
Lemma comp_prk_4e3m_r : in_role RESPONDER -> forall a b, atm static_cost (comp_prk_4e3m a b).
Proof. intros N a b. unfold comp_prk_4e3m. c_auto. apply prk_static_c; [apply comp_salt_4e3m_c|apply comp_giy_r]. Qed.
Lemma comp_prk_4e3m_i : in_role INITIATOR -> forall a b, atm own_cost (comp_prk_4e3m a b).
Proof. intros N a b. unfold comp_prk_4e3m. c_auto. apply prk_own_c; [apply comp_salt_4e3m_c|apply comp_giy_i, N]. Qed.
Lemma comp_prk_4e3m_0 : no_static_3 -> forall a b, atm [] (comp_prk_4e3m a b).
Proof.
  intros N a b. unfold comp_prk_4e3m. apply atm_getc. intros c C. cbv zeta. rewrite (N _ _ _ C). c_auto.
Qed.
#[local] Hint Resolve comp_prk_4e3m_i comp_prk_4e3m_r comp_prk_4e3m_0 : atm.
Lemma prepare_plaintext_3_c : forall a b n, atm [] (prepare_plaintext_3 a b n).
Proof. intros. unfold prepare_plaintext_3. c_auto. Qed.
#[local] Hint Resolve prepare_plaintext_3_c : atm.
Lemma expand_part_c : forall a b n, atm [(WExpand, 1%nat);(WImport, 1%nat);(WDestroy, 1%nat)] (expand_part a b n).
Proof. intros. unfold expand_part. c_auto. Qed.
#[local] Hint Resolve expand_part_c : atm.
Lemma key_iv_aad_c : forall a b n, atm [(WBlock, 1%nat);(WExpand, 2%nat);(WImport, 2%nat);(WDestroy, 2%nat)] (key_iv_aad a b n).
Proof. intros. unfold key_iv_aad. c_auto. Qed.
#[local] Hint Resolve key_iv_aad_c : atm.
Lemma comp_key_iv_aad_3_c : forall a b n, atm [(WBlock, 1%nat);(WExpand, 2%nat);(WImport, 2%nat);(WDestroy, 2%nat)] (comp_key_iv_aad_3 a b n).
Proof. intros. unfold comp_key_iv_aad_3. c_auto. Qed.
#[local] Hint Resolve comp_key_iv_aad_3_c : atm.
Lemma aead_encrypt_c : forall a b c d n, atm [(WEncrypt, 1%nat);(WImport, 1%nat);(WDestroy, 1%nat)] (aead_encrypt a b c d n).
Proof. intros. unfold aead_encrypt. c_auto. Qed.
#[local] Hint Resolve aead_encrypt_c : atm.
Lemma aead_decrypt_c : forall a b c d n, atm [(WDecrypt, 1%nat);(WImport, 1%nat);(WDestroy, 1%nat)] (aead_decrypt a b c d n).
Proof. intros. unfold aead_decrypt. c_auto. Qed.
#[local] Hint Resolve aead_decrypt_c : atm.
Lemma comp_ciphertext_c : forall a b c d n, atm [(WEncrypt, 1%nat);(WImport, 1%nat);(WDestroy, 1%nat)] (comp_ciphertext a b c d n).
Proof. intros. unfold comp_ciphertext. c_auto. Qed.
#[local] Hint Resolve comp_ciphertext_c : atm.
Lemma decrypt_ciphertext_3_c : forall a b c d n, atm [(WDecrypt, 1%nat);(WImport, 1%nat);(WDestroy, 1%nat)] (decrypt_ciphertext_3 a b c d n).
Proof. intros. unfold decrypt_ciphertext_3. c_auto. Qed.
#[local] Hint Resolve decrypt_ciphertext_3_c : atm.
Lemma gen_msg_3_c : forall a n, atm [] (gen_msg_3 a n).
Proof. intros. unfold gen_msg_3. c_auto. Qed.
#[local] Hint Resolve gen_msg_3_c : atm.
Lemma parse_plaintext_3_c : forall p, atm [] (parse_plaintext_3 p).
Proof. intros. unfold parse_plaintext_3. c_auto. Qed.
#[local] Hint Resolve parse_plaintext_3_c : atm.
Lemma prepare_plaintext_4_c : forall n, atm [] (prepare_plaintext_4 n).
Proof. intros. unfold prepare_plaintext_4. c_auto. Qed.
#[local] Hint Resolve prepare_plaintext_4_c : atm.
Lemma compute_key_iv_aad_4_c : forall a b n, atm [(WBlock, 1%nat);(WExpand, 2%nat);(WImport, 2%nat);(WDestroy, 2%nat)] (compute_key_iv_aad_4 a b n).
Proof. intros. unfold compute_key_iv_aad_4. c_auto. Qed.
#[local] Hint Resolve compute_key_iv_aad_4_c : atm.
Lemma kdf_into_prk_c : forall a b cx, atm [] cx -> atm kdf_cost (kdf_into_prk a b cx).
Proof. intros. unfold kdf_into_prk. c_auto. Qed.
#[local] Hint Resolve kdf_into_prk_c : atm.
Lemma compute_prk_out_c : atm kdf_cost (compute_prk_out).
Proof. intros. unfold compute_prk_out. c_auto. Qed.
#[local] Hint Resolve compute_prk_out_c : atm.
Lemma compute_new_prk_out_c : forall e, atm kdf_cost (compute_new_prk_out e).
Proof. intros. unfold compute_new_prk_out. c_auto. Qed.
#[local] Hint Resolve compute_new_prk_out_c : atm.
Lemma compute_prk_exporter_c : forall n, atm kdf_cost (compute_prk_exporter n).
Proof. intros. unfold compute_prk_exporter. c_auto. Qed.
#[local] Hint Resolve compute_prk_exporter_c : atm.
Lemma export_prk_exporter_c : forall nn l n, atm [(WExpand, 3%nat);(WImport, 3%nat);(WDestroy, 3%nat);(WBlock, 4%nat)] (export_prk_exporter nn l n).
Proof. intros. unfold export_prk_exporter. c_auto. Qed.
#[local] Hint Resolve export_prk_exporter_c : atm.
Lemma ead_compose_c : atm [(WEad, 1%nat)] (ead_compose).
Proof. intros. unfold ead_compose. c_auto. Qed.
#[local] Hint Resolve ead_compose_c : atm.
Lemma ead_process_c : atm [(WEad, 1%nat)] (ead_process).
Proof. intros. unfold ead_process. c_auto. Qed.
#[local] Hint Resolve ead_process_c : atm.
Lemma export_key_update_c : forall nn e, atm [(WExpand, 2%nat);(WImport, 2%nat);(WDestroy, 2%nat);(WBlock, 2%nat)] (export_key_update nn e).
Proof. intros. unfold export_key_update. c_auto. Qed.
#[local] Hint Resolve export_key_update_c : atm.
(** The second export of a session needs one derivation less. *)
Definition again_cost : cost := [(WExpand, 2%nat);(WImport, 2%nat);(WDestroy, 2%nat);(WBlock, 3%nat)].
Definition once_cost : cost := [(WExpand, 3%nat);(WImport, 3%nat);(WDestroy, 3%nat);(WBlock, 4%nat)].
Definition oscore_cost : cost := [(WExpand, 5%nat);(WImport, 5%nat);(WDestroy, 5%nat);(WBlock, 7%nat)].
Definition spends (v : cost) {A} (m : M A) (w : world) : Prop := forall a w', m w = Ret a w' ->
  known (w_ctx w') /\ exists e, w_tr w' = e ++ w_tr w /\ forall k, (amount k e <= look v k)%nat.
Lemma spends_atm : forall v A (m : M A) w, atm v m -> known (w_ctx w) -> spends v m w.
Proof. intros v A m w H I a w' R. exact (H _ _ _ I R). Qed.
Lemma spends_bind : forall c v A B (m : M A) (k : A -> M B) w, spends c m w -> within c v = true ->
  (forall a w', m w = Ret a w' -> known (w_ctx w') -> spends (left_of v c) (k a) w') -> spends v (bind m k) w.
Proof.
  intros c v A B m k w H L K b w' R. apply bind_inv in R. destruct R as (a & w1 & R1 & R2).
  destruct (H _ _ R1) as (I1 & e1 & X1 & Y1). destruct (K _ _ R1 I1 _ _ R2) as (I2 & e2 & X2 & Y2). split; [exact I2|].
  exists (e2 ++ e1). split; [rewrite X2, X1; apply app_assoc|]. intro z.
  rewrite amount_app. pose proof (Y1 z) as Z1. pose proof (Y2 z) as Z2. rewrite look_left in Z2. pose proof (within_le _ _ L z). lia.
Qed.
Lemma export_again : forall l n w, known (w_ctx w) -> c_prk_state (w_ctx w) = PRK_OUT -> spends again_cost (export_prk_exporter true l n) w.
Proof.
  intros l n w I P. unfold export_prk_exporter, again_cost. destruct (_ || _); [apply spends_atm; [apply ret_c|exact I]|].
  destruct (negb (label_allowed l)); [apply spends_atm; [apply ret_c|exact I]|].
  eapply (spends_bind []); [|reflexivity|].
  - intros c w' R. injection R as <- <-. split; [exact I|]. exists []. split; [reflexivity|]. intro k. apply PeanoNat.Nat.le_0_l.
  - intros c w' R I'. injection R as <- <-. rewrite P. change (PRK_OUT =? PRK_4E3M) with false. cbv iota. apply spends_atm; [|exact I]. c_auto.
Qed.
Lemma export_oscore_session_c : forall nn a b c d, atm oscore_cost (export_oscore_session nn a b c d).
Proof.
  intros nn a b c d. unfold export_oscore_session, oscore_cost. destruct (_ || _); [apply ret_c|]. apply atm_getc. intros x _.
  destruct (negb (c_oscore_ok x)); [apply ret_c|]. destruct (_ || _); [apply ret_c|].
  apply atm_free; [c_mod|intros _]. intros w r w' I. revert r w'. change (spends oscore_cost (bind (export_prk_exporter true 0 a)
    (fun y => let '(r, sec) := y in if negb (r =? OK) then ret (E_PRK, OSC sec [] [] []) else
      bind (export_prk_exporter true 1 b) (fun z => let '(r, salt) := z in if negb (r =? OK) then ret (E_PRK, OSC sec salt [] []) else
      let '(r, sid) := oscore_id (c_peer_cid x) c in if negb (r =? OK) then ret (r, OSC sec salt [] []) else
      let '(r, rid) := oscore_id (c_cid x) d in if negb (r =? OK) then ret (r, OSC sec salt sid []) else
      modify (set_status (c_status x)) ;;; ret (OK, OSC sec salt sid rid)))) w).
  eapply (spends_bind once_cost); [apply spends_atm; [apply export_prk_exporter_c|exact I]|reflexivity|].
  intros [r1 sec] w1 R1 I1. destruct (r1 =? OK) eqn:E1; cbn [negb]; [|apply spends_atm; [apply ret_c|exact I1]].
  apply Z.eqb_eq in E1. subst r1.
  assert (P : c_prk_state (w_ctx w1) = PRK_OUT).
  { destruct w as [c0 t0]. apply (sat_run _ _ _ _ _ _ _ (export_value true 0 a c0 t0) R1). reflexivity. }
  eapply (spends_bind again_cost); [exact (export_again _ _ _ I1 P)|vm_compute; reflexivity|].
  intros [r2 salt] w2 R2 I2. apply spends_atm; [|exact I2]. c_auto.
Qed.
#[local] Hint Resolve export_oscore_session_c : atm.
(** ** Whole calls *)
Definition starts (v : cost) (c : ctx) {A} (m : M A) : Prop :=
  forall t a w', m (Wd c t) = Ret a w' -> exists e, w_tr w' = e ++ t /\ forall k, (amount k e <= look v k)%nat.
Lemma starts_ret : forall v c A (a : A), starts v c (ret a).
Proof. intros v c A a t x w' R. inversion R; subst. exists []. split; [reflexivity|]. intro k. apply PeanoNat.Nat.le_0_l. Qed.
Lemma starts_getc : forall v c A (k : ctx -> M A), starts v c (k c) -> starts v c (bind getc k).
Proof. intros v c A k H. exact H. Qed.
Lemma starts_modify : forall v c A f (m : M A), starts v (f c) m -> starts v c (modify f ;;; m).
Proof. intros v c A f m H. exact H. Qed.
Lemma starts_on : forall v c A (m : M A), known c -> atm v m -> starts v c m.
Proof. intros v c A m I H t a w' R. exact (proj2 (H (Wd c t) a w' I R)). Qed.
Ltac s_step :=
  lazymatch goal with
  | |- starts _ _ (ret _) => apply starts_ret
  | |- starts _ _ (bind getc _) => apply starts_getc
  | |- starts _ _ (bind (enter _ _) _) => unfold enter; apply starts_modify
  | |- starts _ _ (if ?b then _ else _) => destruct b
  end.
Ltac s_all := repeat s_step; (apply starts_on; [assumption|]); c_auto.
Definition sign_2c : cost := [(WMakePair, 1%nat); (WAgree, 1%nat); (WSign, 1%nat); (WExtract, 1%nat); (WExpand, 2%nat); (WHash, 2%nat); (WImport, 5%nat); (WDestroy, 5%nat); (WFetch, 1%nat); (WEad, 1%nat); (WBlock, 12%nat)].
Definition static_2c : cost := [(WMakePair, 1%nat); (WAgree, 2%nat); (WExtract, 2%nat); (WExpand, 3%nat); (WHash, 2%nat); (WImport, 7%nat); (WDestroy, 7%nat); (WFetch, 1%nat); (WEad, 1%nat); (WBlock, 14%nat)].
Lemma m2c_sign : forall nn x c, J (c_chosen_method c) RESPONDER MSG_2 -> in_role RESPONDER -> no_static_2 -> starts sign_2c c (message_2_compose nn x).
Proof. intros nn x c I R N. unfold message_2_compose, sign_2c. s_all. Qed.
Lemma m2c_static : forall nn x c, J (c_chosen_method c) RESPONDER MSG_2 -> in_role RESPONDER -> no_sign -> starts static_2c c (message_2_compose nn x).
Proof. intros nn x c I R N. unfold message_2_compose, static_2c. s_all. Qed.
Definition sign_2p : cost := [(WAgree, 1%nat); (WVerify, 1%nat); (WExtract, 1%nat); (WExpand, 2%nat); (WHash, 2%nat); (WImport, 5%nat); (WDestroy, 5%nat); (WTrust, 1%nat); (WEad, 1%nat); (WBlock, 9%nat)].
Definition static_2p : cost := [(WAgree, 2%nat); (WExtract, 2%nat); (WExpand, 3%nat); (WHash, 2%nat); (WImport, 7%nat); (WDestroy, 7%nat); (WTrust, 1%nat); (WEad, 1%nat); (WBlock, 11%nat)].
Lemma m2p_sign : forall nn x c, J (c_chosen_method c) INITIATOR MSG_2 -> in_role INITIATOR -> no_static_2 -> starts sign_2p c (message_2_process nn x).
Proof. intros nn x c I R N. unfold message_2_process, sign_2p. s_all. Qed.
Lemma m2p_static : forall nn x c, J (c_chosen_method c) INITIATOR MSG_2 -> in_role INITIATOR -> no_sign -> starts static_2p c (message_2_process nn x).
Proof. intros nn x c I R N. unfold message_2_process, static_2p. s_all. Qed.
Definition sign_3c : cost := [(WSign, 1%nat); (WExpand, 3%nat); (WEncrypt, 1%nat); (WHash, 1%nat); (WImport, 4%nat); (WDestroy, 4%nat); (WFetch, 1%nat); (WEad, 1%nat); (WBlock, 12%nat)].
Definition static_3c : cost := [(WAgree, 1%nat); (WExtract, 1%nat); (WExpand, 4%nat); (WEncrypt, 1%nat); (WHash, 1%nat); (WImport, 6%nat); (WDestroy, 6%nat); (WFetch, 1%nat); (WEad, 1%nat); (WBlock, 14%nat)].
Lemma m3c_sign : forall nn x c, J (c_chosen_method c) INITIATOR MSG_3 -> in_role INITIATOR -> no_static_3 -> starts sign_3c c (message_3_compose nn x).
Proof. intros nn x c I R N. unfold message_3_compose, sign_3c. s_all. Qed.
Lemma m3c_static : forall nn x c, J (c_chosen_method c) INITIATOR MSG_3 -> in_role INITIATOR -> no_sign -> starts static_3c c (message_3_compose nn x).
Proof. intros nn x c I R N. unfold message_3_compose, static_3c. s_all. Qed.
Definition sign_3p : cost := [(WVerify, 1%nat); (WExpand, 3%nat); (WDecrypt, 1%nat); (WHash, 1%nat); (WImport, 5%nat); (WDestroy, 5%nat); (WTrust, 1%nat); (WEad, 1%nat); (WBlock, 10%nat)].
Definition static_3p : cost := [(WAgree, 1%nat); (WExtract, 1%nat); (WExpand, 4%nat); (WDecrypt, 1%nat); (WHash, 1%nat); (WImport, 7%nat); (WDestroy, 7%nat); (WTrust, 1%nat); (WEad, 1%nat); (WBlock, 12%nat)].
Lemma m3p_sign : forall nn x c, J (c_chosen_method c) RESPONDER MSG_3 -> in_role RESPONDER -> no_static_3 -> starts sign_3p c (message_3_process nn x).
Proof. intros nn x c I R N. unfold message_3_process, sign_3p. s_all. Qed.
Lemma m3p_static : forall nn x c, J (c_chosen_method c) RESPONDER MSG_3 -> in_role RESPONDER -> no_sign -> starts static_3p c (message_3_process nn x).
Proof. intros nn x c I R N. unfold message_3_process, static_3p. s_all. Qed.
Lemma message_1_compose_c : (forall c, known c) -> forall nn x, atm (limits (AM1Compose nn x)) (message_1_compose nn x).
Proof. intros. unfold message_1_compose, enter. cbn [limits]. c_auto. Qed.
#[local] Hint Resolve message_1_compose_c : atm.
Lemma message_1_process_c : (forall c, known c) -> forall nn x, atm (limits (AM1Process nn x)) (message_1_process nn x).
Proof. intros. unfold message_1_process, enter. cbn [limits]. c_auto. Qed.
#[local] Hint Resolve message_1_process_c : atm.
Lemma message_4_compose_c : (forall c, known c) -> forall nn x, atm (limits (AM4Compose nn x)) (message_4_compose nn x).
Proof. intros. unfold message_4_compose, enter. cbn [limits]. c_auto. Qed.
#[local] Hint Resolve message_4_compose_c : atm.
Lemma message_4_process_c : (forall c, known c) -> forall nn x, atm (limits (AM4Process nn x)) (message_4_process nn x).
Proof. intros. unfold message_4_process, enter. cbn [limits]. c_auto. Qed.
#[local] Hint Resolve message_4_process_c : atm.
Lemma cfg_c : (forall c, known c) -> forall f, atm [] (cfg f). Proof. intros. unfold cfg. c_auto. Qed.
#[local] Hint Resolve cfg_c : atm.
(** Calls other than those for messages 2 and 3. *)
Definition plain (a : api) : bool := match a with AM2Compose _ _ | AM2Process _ _ | AM3Compose _ _ | AM3Process _ _ => false | _ => true end.
Lemma work_bound : (forall c, known c) -> forall a, plain a = true -> atm (limits a) (do_api a).
Proof. intros K a P. destruct a; cbn [plain] in P; try discriminate P; cbn [do_api limits]; unfold msg_out, no_out; try (apply cfg_c, K); c_auto. Qed.
(** Until the application is asked about credentials. *)
Definition early (v : cost) {A} (m : M A) : Prop := forall w a w', known (w_ctx w) -> m w = Ret a w' ->
  exists e, w_tr w' = e ++ w_tr w /\ forall later before, e = later ++ before -> unasked before -> forall k, (amount k before <= look v k)%nat.
Lemma early_atm : forall v A (m : M A), atm v m -> early v m.
Proof.
  intros v A m H w a w' I R. destruct (H _ _ _ I R) as (_ & e & X & Y). exists e. split; [exact X|]. intros later before -> _ k.
  pose proof (Y k) as Z0. rewrite amount_app in Z0. lia.
Qed.
Lemma early_bind : forall c v A B (m : M A) (k : A -> M B), atm c m -> within c v = true -> (forall a, early (left_of v c) (k a)) -> early v (bind m k).
Proof.
  intros c v A B m k H L K w b w' I R. apply bind_inv in R. destruct R as (a & w1 & R1 & R2).
  destruct (H _ _ _ I R1) as (I1 & e1 & X1 & Y1). destruct (K a _ _ _ I1 R2) as (e2 & X2 & Y2).
  exists (e2 ++ e1). split; [rewrite X2, X1; apply app_assoc|]. intros later before G U z.
  pose proof (Y1 z) as Z1. pose proof (within_le _ _ L z) as Z0.
  apply app_eq_app in G as (l & [[G1 G2]|[G1 G2]]); subst.
  - assert (U2 : unasked l) by (intros x Hx; apply U, in_or_app; now left). pose proof (Y2 _ _ eq_refl U2 z) as Z2.
    rewrite look_left in Z2. rewrite amount_app. lia.
  - rewrite amount_app in Z1. lia.
Qed.
Lemma early_free : forall v A B (m : M A) (k : A -> M B), atm [] m -> (forall a, early v (k a)) -> early v (bind m k).
Proof.
  intros v A B m k H K w b w' I R. apply bind_inv in R. destruct R as (a & w1 & R1 & R2).
  destruct (H _ _ _ I R1) as (I1 & e1 & X1 & Y1). destruct (K a _ _ _ I1 R2) as (e2 & X2 & Y2).
  exists (e2 ++ e1). split; [rewrite X2, X1; apply app_assoc|]. intros later before G U z.
  pose proof (Y1 z) as Z1. change (look [] z) with 0%nat in Z1.
  apply app_eq_app in G as (l & [[G1 G2]|[G1 G2]]); subst.
  - assert (U2 : unasked l) by (intros x Hx; apply U, in_or_app; now left). pose proof (Y2 _ _ eq_refl U2 z) as Z2.
    rewrite amount_app. lia.
  - rewrite amount_app in Z1. lia.
Qed.
Lemma early_assoc : forall v A B C (m : M A) (k : A -> M B) (h : B -> M C), early v (bind m (fun a => bind (k a) h)) -> early v (bind (bind m k) h).
Proof. intros v A B C m k h H w c w' I R. apply (H w c w' I). unfold bind in *. destruct (m w); [exact R|discriminate]. Qed.
Lemma early_getc : forall v B (k : ctx -> M B), (forall c, early v (k c)) -> early v (bind getc k).
Proof. intros v B k H w b w' I R. exact (H (w_ctx w) w b w' I R). Qed.
Lemma early_asked : forall v u A cr (k : Z * creds * bytes -> M A), (forall a, atm u (k a)) -> early v (bind (call_cverify cr) k).
Proof.
  intros v u A cr k H w a w' I0 X. apply bind_inv in X as (x & w1 & X1 & X2). destruct (cverify_c _ _ _ _ I0 X1) as (I1 & _).
  destruct (H _ _ _ _ I1 X2) as (_ & e & Y & _).
  assert (Q : exists ev, w_tr w1 = ev :: w_tr w /\ ~ unasked [ev]).
  { unfold call_cverify in X1. apply bind_inv in X1 as (c & w2 & X3 & X1). inversion X3; subst; clear X3.
    apply bind_inv in X1 as (f & w3 & X3 & X1). apply need_inv in X3 as [_ ->].
    apply bind_inv in X1 as (t & w4 & X3 & X1). inversion X3; subst; clear X3.
    destruct (o_cverify _ _ _) as [[r c'] pub] in X1. apply bind_inv in X1 as (q & w5 & X3 & X1). inversion X3; subst; clear X3. inversion X1; subst.
    eexists. split; [reflexivity|]. intro U. exact (U _ (or_introl eq_refl)). }
  destruct Q as (ev & Q & NU). exists (e ++ [ev]). split; [rewrite Y, Q, <- app_assoc; reflexivity|].
  intros later before G U z. destruct before as [|y before] using rev_ind; [apply PeanoNat.Nat.le_0_l|]. exfalso. apply NU.
  rewrite app_assoc in G. apply app_inj_tail in G as [_ ->]. intros x0 [<-|[]]. apply U, in_or_app. right. now left.
Qed.
Definition plenty : cost := map (fun k => (k, 40%nat)) works.
Ltac e_norm := lazymatch goal with
  | |- early (left_of ?v ?c) _ => let x := eval vm_compute in (left_of v c) in change (left_of v c) with x
  | _ => idtac end.
Ltac e_step :=
  cbn [fst snd];
  lazymatch goal with
  | |- early _ (bind (call_cverify _) _) => apply early_asked with (u := plenty); intro; c_auto
  | |- early _ (bind (ret _) _) => apply early_free; [apply ret_c|intro]
  | |- early _ (bind getc _) => apply early_getc; intro
  | |- early _ (bind (modify _) _) => apply early_free; [c_mod|intro]
  | |- early _ (bind (bind _ _) _) => apply early_assoc
  | |- early _ (bind (if ?b then _ else _) _) => destruct b
  | |- early _ (bind (match ?x with _ => _ end) _) => destruct x
  | |- early _ (bind (let _ := _ in _) _) => cbv zeta
  | |- early _ (bind _ _) => first
      [ apply early_free; [solve [eauto 4 with atm nocore]|intro]
      | eapply early_bind; [solve [eauto 4 with atm nocore]|vm_compute; reflexivity|intro; e_norm] ]
  | |- early _ (if ?b then _ else _) => destruct b
  | |- early _ (match ?x with _ => _ end) => destruct x
  | |- early _ (let _ := _ in _) => cbv zeta
  | |- early _ _ => apply early_atm; c_auto
  end.
Lemma prk_3e2m_any : forall a b, atm static_cost (comp_prk_3e2m a b).
Proof. intros a b. unfold comp_prk_3e2m. c_auto. apply prk_static_c; [apply comp_salt_3e2m_c|apply comp_grx_i]. Qed.
Lemma prk_4e3m_any : forall a b, atm static_cost (comp_prk_4e3m a b).
Proof. intros a b. unfold comp_prk_4e3m. c_auto. apply prk_static_c; [apply comp_salt_4e3m_c|apply comp_giy_r]. Qed.
#[local] Hint Resolve prk_3e2m_any prk_4e3m_any : atm.
Lemma early_2 : (forall c, known c) -> forall nn m, early (early_limits (AM2Process nn m)) (message_2_process nn m).
Proof. intros K nn m. unfold message_2_process, enter. cbn [early_limits]. repeat e_step. Qed.
Lemma early_3 : (forall c, known c) -> forall nn m, early (early_limits (AM3Process nn m)) (message_3_process nn m).
Proof. intros K nn m. unfold message_3_process, enter. cbn [early_limits]. repeat e_step. Qed.
End Cost.

Section Bounds.
Context {E : env}.
Lemma starts_out : forall v c A B (m : M A) (k : A -> M B), (forall a w, exists b, k a w = Ret b w) -> starts v c m -> starts v c (bind m k).
Proof.
  intros v c A B m k K H t b w' R. apply bind_inv in R. destruct R as (a & w1 & R1 & R2). destruct (K a w1) as [b' Kb].
  rewrite Kb in R2. inversion R2; subst. exact (H _ _ _ R1).
Qed.
Definition exactly (me ro ms m r x : Z) : Prop := m = me /\ r = ro /\ x = ms.
Lemma sign_or_static_2 : forall me ro, no_static_2 (exactly me ro MSG_2) \/ no_sign (exactly me ro MSG_2).
Proof.
  intros me ro. destruct ((me =? 1) || (me =? 3)) eqn:B; [right|left].
  - intros m r x (-> & _ & ->). cbn. destruct ((me =? 0) || (me =? 2)) eqn:C; [exfalso; lia|]. rewrite B. discriminate.
  - intros m r x (-> & _ & _). exact B.
Qed.
Lemma sign_or_static_3 : forall me ro, no_static_3 (exactly me ro MSG_3) \/ no_sign (exactly me ro MSG_3).
Proof.
  intros me ro. destruct ((me =? 2) || (me =? 3)) eqn:B; [right|left].
  - intros m r x (-> & _ & ->). cbn. destruct ((me =? 0) || (me =? 1)) eqn:C; [exfalso; lia|]. rewrite B. discriminate.
  - intros m r x (-> & _ & _). exact B.
Qed.
Lemma role_is : forall me ro ms, in_role (exactly me ro ms) ro. Proof. intros me ro ms m r x (_ & H & _). exact H. Qed.
Lemma exactly_refl : forall me ro ms, exactly me ro ms me ro ms. Proof. now repeat split. Qed.
(** The two ways a call for message 2 or 3 may go. *)
Definition ways (a : api) : list cost :=
  match a with
  | AM2Compose _ _ => [sign_2c; static_2c] | AM2Process _ _ => [sign_2p; static_2p]
  | AM3Compose _ _ => [sign_3c; static_3c] | AM3Process _ _ => [sign_3p; static_3p]
  | _ => [limits a]
  end.
Lemma one_way : forall a w r w', do_api a w = Ret r w' ->
  exists v e, In v (ways a) /\ w_tr w' = e ++ w_tr w /\ forall k, (amount k e <= look v k)%nat.
Proof.
  intros a [c t] r w' H. destruct (plain a) eqn:P.
  { destruct (work_bound (fun _ _ _ => True) (fun _ => I) a P (Wd c t) r w' I H) as (_ & e & X). exists (limits a), e.
    split; [destruct a; try discriminate P; now left|exact X]. }
  assert (Q : exists v, In v (ways a) /\ starts v c (do_api a)).
  { destruct a; try discriminate P; cbn [do_api ways]; unfold msg_out, no_out.
    - destruct (sign_or_static_2 (c_chosen_method c) RESPONDER) as [N|N]; eexists; (split; [cbn [In]|apply starts_out; [intros []; eexists; reflexivity|first
        [eapply m2c_sign; [apply exactly_refl|apply role_is|exact N]|eapply m2c_static; [apply exactly_refl|apply role_is|exact N]]]]); tauto.
    - destruct (sign_or_static_2 (c_chosen_method c) INITIATOR) as [N|N]; eexists; (split; [cbn [In]|apply starts_out; [intros; eexists; reflexivity|first
        [eapply m2p_sign; [apply exactly_refl|apply role_is|exact N]|eapply m2p_static; [apply exactly_refl|apply role_is|exact N]]]]); tauto.
    - destruct (sign_or_static_3 (c_chosen_method c) INITIATOR) as [N|N]; eexists; (split; [cbn [In]|apply starts_out; [intros []; eexists; reflexivity|first
        [eapply m3c_sign; [apply exactly_refl|apply role_is|exact N]|eapply m3c_static; [apply exactly_refl|apply role_is|exact N]]]]); tauto.
    - destruct (sign_or_static_3 (c_chosen_method c) RESPONDER) as [N|N]; eexists; (split; [cbn [In]|apply starts_out; [intros; eexists; reflexivity|first
        [eapply m3p_sign; [apply exactly_refl|apply role_is|exact N]|eapply m3p_static; [apply exactly_refl|apply role_is|exact N]]]]); tauto. }
  destruct Q as (v & V & S). destruct (S _ _ _ H) as (e & X). exists v, e. split; [exact V|exact X].
Qed.
Lemma ways_within : forall a v, In v (ways a) -> within v (limits a) = true.
Proof. intros a v H. destruct a; cbn [ways In] in H; repeat (destruct H as [<-|H]; [vm_compute; reflexivity|]); destruct H. Qed.
Lemma call_bound : forall a w r w', do_api a w = Ret r w' ->
  exists e, w_tr w' = e ++ w_tr w /\ forall k, (amount k e <= limit a k)%nat.
Proof.
  intros a w r w' H. destruct (one_way _ _ _ _ H) as (v & e & V & T & L). exists e. split; [exact T|]. intro k.
  pose proof (within_le _ _ (ways_within _ _ V) k). specialize (L k). unfold limit. lia.
Qed.
Lemma public_bound : forall a w r w', do_api a w = Ret r w' ->
  exists e, w_tr w' = e ++ w_tr w /\ (amount WMakePair e + amount WAgree e + amount WSign e + amount WVerify e <= publics a)%nat.
Proof.
  intros a w r w' H. destruct (one_way _ _ _ _ H) as (v & e & V & T & L). exists e. split; [exact T|].
  pose proof (L WMakePair). pose proof (L WAgree). pose proof (L WSign). pose proof (L WVerify).
  assert (look v WMakePair + look v WAgree + look v WSign + look v WVerify <= publics a)%nat; [|lia].
  clear - V. destruct a; cbn [ways In] in V; repeat (destruct V as [<-|V]; [vm_compute; repeat constructor|]); destruct V.
Qed.
Lemma runs_bound : forall l w rs w', runs l w = Ret rs w' ->
  exists e, w_tr w' = e ++ w_tr w /\ forall k, (amount k e <= list_sum (map (fun a => limit a k) l))%nat.
Proof.
  induction l as [|a l IH]; intros w rs w' H.
  - apply runs_nil in H as [_ ->]. exists []. split; [reflexivity|]. intro k. apply PeanoNat.Nat.le_0_l.
  - apply runs_cons in H as (r & w1 & rs' & H1 & H2 & _). destruct (call_bound _ _ _ _ H1) as (e1 & T1 & L1).
    destruct (IH _ _ _ H2) as (e2 & T2 & L2). exists (e2 ++ e1). rewrite T2, T1. split; [apply app_assoc|].
    intro k. cbn [map list_sum fold_right]. rewrite amount_app. specialize (L1 k). specialize (L2 k). unfold list_sum in L2. lia.
Qed.

(** ** Whole sessions *)
Lemma one_kind : forall k n, (forall a, Z.of_nat (limit a k) <= per_call n a) -> forall a w r w', do_api a w = Ret r w' ->
  exists e, w_tr w' = e ++ w_tr w /\ count (is_work k) e <= per_call n a.
Proof.
  intros k n L a w r w' H. destruct (call_bound _ _ _ _ H) as (e & T & X). exists e. split; [exact T|].
  rewrite count_nat. unfold nz. specialize (X k). specialize (L a). unfold amount in X. lia.
Qed.
Definition n_agree (j : mkind) : Z := match j with M2c | M2p => 2 | M3c | M3p => 1 | _ => 0 end.
Definition n_hash (j : mkind) : Z := match j with M1c | M1p => 1 | M2c | M2p => 2 | M3c | M3p => 1 | _ => 0 end.
Definition f_agree (s : Z) : Z := 2 * before 2 s + before 3 s.
Definition f_hash (s : Z) : Z := before 1 s + 2 * before 2 s + before 3 s.
Lemma f_agree_le : forall s, 0 <= f_agree s <= 3.
Proof. intro s. unfold f_agree. pose proof (before_le 2 s). pose proof (before_le 3 s). lia. Qed.
Lemma f_hash_le : forall s, 0 <= f_hash s <= 4.
Proof. intro s. unfold f_hash. pose proof (before_le 1 s). pose proof (before_le 2 s). pose proof (before_le 3 s). lia. Qed.
Ltac fnext := intros k a b d X; destruct k; cbn [required] in X; injection X as <- <- <-; vm_compute; split; discriminate.
Ltac per := intros []; vm_compute; discriminate.
Lemma session_bound : forall l w rs w' e, reachable w -> ~ In AInit l -> runs l w = Ret rs w' -> w_tr w' = e ++ w_tr w ->
  (amount WAgree e <= 3 /\ amount WExtract e <= 3 /\ amount WHash e <= 4)%nat.
Proof.
  intros l w rs w' e RW A H T. pose proof (reachable_nonneg _ RW) as N.
  assert (X1 : count (is_work WAgree) e <= 3).
  { apply (total_le _ n_agree f_agree 3 l w rs w' e) with (4 := A) (5 := N) (6 := H) (7 := T); [apply one_kind; per|exact f_agree_le|fnext]. }
  assert (X2 : count (is_work WExtract) e <= 3).
  { apply (total_le _ n_agree f_agree 3 l w rs w' e) with (4 := A) (5 := N) (6 := H) (7 := T); [apply one_kind; per|exact f_agree_le|fnext]. }
  assert (X3 : count (is_work WHash) e <= 4).
  { apply (total_le _ n_hash f_hash 4 l w rs w' e) with (4 := A) (5 := N) (6 := H) (7 := T); [apply one_kind; per|exact f_hash_le|fnext]. }
  rewrite count_nat in X1, X2, X3. unfold nz, amount in *. lia.
Qed.
End Bounds.
Lemma early_bound : forall (E : env) a w r w', do_api a w = Ret r w' -> exists e, w_tr w' = e ++ w_tr w /\
  forall later before, e = later ++ before -> unasked before -> forall k, (amount k before <= look (early_limits a) k)%nat.
Proof.
  intros E a w r w' H.
  assert (K : forall c, known (fun _ _ _ => True) c) by (intro; exact I).
  assert (D : early_limits a = limits a \/ (exists p m, a = AM2Process p m) \/ exists p m, a = AM3Process p m)
    by (destruct a; try (left; reflexivity); right; [left|right]; do 2 eexists; reflexivity).
  destruct D as [D|[(p & m & ->)|(p & m & ->)]].
  - rewrite D. destruct (call_bound _ _ _ _ H) as (e & X & Y). exists e. split; [exact X|]. intros later before -> _ k.
    pose proof (Y k) as Z0. rewrite amount_app in Z0. unfold limit in Z0. lia.
  - cbn [do_api] in H. unfold no_out in H. apply bind_inv in H as (v & w1 & G1 & G2). inversion G2; subst. exact (early_2 _ K p m _ _ _ I G1).
  - cbn [do_api] in H. unfold no_out in H. apply bind_inv in H as (v & w1 & G1 & G2). inversion G2; subst. exact (early_3 _ K p m _ _ _ I G1).
Qed.

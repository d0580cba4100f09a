(** Runs of one context among others.  No code of /repo is modelled here. *)
From Verif Require Import Monad Cbor CborGen Common Api Msg1 Msg2 Msg3 Msg4 Exporter MsgError History Interleave Spec Logic Frame HistoryProofs.

Section Sim.
Variable E : env.
Variable phi : list event -> list event.
Notation E1 := (heard phi E).

(** From the same context, with the own history [t0] in place of the whole history [T0]: [m']
    does what [m] does, provided [phi] gives the whole history at every own event. *)
Definition meets (e t0 T0 : list event) : Prop := forall e1 x e2, e = e1 ++ x :: e2 -> phi (e2 ++ t0) = e2 ++ T0.
Definition sim {A} (m m' : M A) : Prop := forall c t0 T0, (forall b, live b t0 = live b T0) ->
  match m (Wd c T0) with
  | Ret a w1 => exists e, w_tr w1 = e ++ T0 /\ (meets e t0 T0 -> m' (Wd c t0) = Ret a (Wd (w_ctx w1) (e ++ t0)))
  | Ub u => (forall e, phi (e ++ t0) = e ++ T0) -> m' (Wd c t0) = Ub u
  end.
Lemma bind_s : forall A B (m m' : M A) (k k' : A -> M B), sim m m' -> (forall a, sim (k a) (k' a)) -> sim (bind m k) (bind m' k').
Proof.
  intros A B m m' k k' H1 H2 c t0 T0 HL. specialize (H1 c t0 T0 HL). unfold bind. destruct (m (Wd c T0)) as [a [c1 T1]|u].
  - cbn [w_tr w_ctx] in H1. destruct H1 as (e & -> & H1).
    assert (HL' : forall b, live b (e ++ t0) = live b (e ++ T0)) by (intro; rewrite !live_app, HL; reflexivity).
    specialize (H2 a c1 (e ++ t0) (e ++ T0) HL'). destruct (k a (Wd c1 (e ++ T0))) as [b [c2 T2]|u].
    + cbn [w_tr w_ctx] in *. destruct H2 as (e' & -> & H2). exists (e' ++ e). split; [apply app_assoc|]. intro Q. rewrite H1.
      * rewrite H2; [now rewrite app_assoc|]. intros e1 x e2 ->. specialize (Q e1 x (e2 ++ e)). rewrite <- !app_assoc in Q. apply Q. reflexivity.
      * intros e1 x e2 ->. apply (Q (e' ++ e1) x e2). now rewrite app_assoc.
    + intro Q. rewrite H1; [apply H2|].
      * intro e'. specialize (Q (e' ++ e)). now rewrite <- !app_assoc in Q.
      * intros e1 x e2 _. apply Q.
  - intro Q. now rewrite (H1 Q).
Qed.
Ltac pure1 := intros c t0 T0 HL; exists []; split; [reflexivity|]; intros _; reflexivity.
Lemma ret_s : forall A (a : A), sim (ret a) (ret a). Proof. intros A a. pure1. Qed.
Lemma getc_s : sim getc getc. Proof. pure1. Qed.
Lemma modify_s : forall f, sim (modify f) (modify f). Proof. intros f. pure1. Qed.
Lemma fault_s : forall A u, sim (@fault A u) (@fault A u). Proof. intros A u c t0 T0 HL _. reflexivity. Qed.
Lemma check_s : forall b u, sim (check b u) (check b u). Proof. intros [] u; [apply ret_s|apply fault_s]. Qed.
Lemma need_s : forall A (o : option A) u, sim (need o u) (need o u). Proof. intros A [a|] u; [apply ret_s|apply fault_s]. Qed.
Lemma emit_s : forall e, sim (emit e) (emit e). Proof. intros e c t0 T0 HL. exists [e]. split; [reflexivity|]. intros _. reflexivity. Qed.
Create HintDb sm discriminated.
#[local] Hint Constants Opaque : sm.
#[local] Hint Transparent bytes M : sm.
#[local] Hint Resolve ret_s getc_s modify_s fault_s check_s need_s emit_s : sm.
(** One callback, whose answer is the one given after [phi] of the own history. *)
Lemma ask_s : forall A B (o : list event -> A) (f : A -> M B), (forall a, exists e k, f a = (emit e ;;; k) /\ sim k k) ->
  sim (t <- trace ;; f (o t)) (t <- trace ;; f (o (phi t))).
Proof.
  intros A B o f H c t0 T0 HL. unfold bind, trace. cbn [w_tr]. destruct (H (o T0)) as (e & k & Q & S).
  assert (HL' : forall b, live b (e :: t0) = live b (e :: T0)) by (intro b; change (live b ([e] ++ t0) = live b ([e] ++ T0)); rewrite !live_app, HL; reflexivity).
  specialize (S c (e :: t0) (e :: T0) HL'). assert (R : forall t, f (o T0) (Wd c t) = k (Wd c (e :: t))) by (intro; now rewrite Q). rewrite R.
  destruct (k (Wd c (e :: T0))) as [a w1|u].
  - destruct S as (e' & T & S). exists (e' ++ [e]). split; [now rewrite <- app_assoc|]. intro M. replace (phi t0) with T0; [|symmetry; apply (M e' e [] eq_refl)].
    rewrite R, S; [now rewrite <- app_assoc|]. intros e1 x e2 ->. specialize (M e1 x (e2 ++ [e])). rewrite <- !app_assoc in M. apply M. reflexivity.
  - intro M. replace (phi t0) with T0; [|symmetry; apply (M [])]. rewrite R. apply S. intro e'. specialize (M (e' ++ [e])). now rewrite <- !app_assoc in M.
Qed.
Ltac s_norm :=
  try change (@cf_max_suites E1) with (@cf_max_suites E); try change (@cf_max_cid E1) with (@cf_max_cid E);
  try change (@cf_max_ecc E1) with (@cf_max_ecc E); try change (@cf_max_mac E1) with (@cf_max_mac E);
  try change (@cf_max_ead E1) with (@cf_max_ead E); try change (@cf_max_certs E1) with (@cf_max_certs E);
  try change (@cf_max_kid E1) with (@cf_max_kid E); try change (@cf_max_alg E1) with (@cf_max_alg E);
  try change (@cf_canon E1) with (@cf_canon E); try change (@cf_stack E1) with (@cf_stack E);
  try change (@cf_sizeof_mac E1) with (@cf_sizeof_mac E); try change (@dec_message_2 E1) with (@dec_message_2 E);
  try change (@creds_of_chain E1) with (@creds_of_chain E); try change (@creds_of_x5t E1) with (@creds_of_x5t E).
Ltac s_step :=
  lazymatch goal with
  | |- sim (bind _ _) _ => apply bind_s; [|intro]
  | |- sim (if ?b then _ else _) _ => destruct b
  | |- sim (match ?x with _ => _ end) _ => destruct x
  | |- sim (let _ := _ in _) _ => cbv zeta
  | |- sim ((fun _ => _) _) _ => cbv beta
  | |- sim _ _ => solve [auto 2 with sm nocore]
  end.
Ltac s_auto := s_norm; repeat s_step.
Lemma free_s : forall b, sim (free b) (free b).
Proof.
  intros b c t0 T0 HL. unfold free, bind, trace. cbn [w_tr]. rewrite <- (HL b). destruct (0 <? live b t0); cbn.
  - exists [EvFree b]. split; [reflexivity|]. intros _. reflexivity.
  - reflexivity.
Qed.
Lemma alloc_s : forall b n, sim (@alloc E b n) (@alloc E1 b n).
Proof.
  intros. unfold alloc. s_norm. destruct cf_stack; [s_auto|].
  refine (ask_s _ _ (fun t => @o_alloc E t b n) (fun ok => emit (EvAlloc b n ok) ;;; ret ok) _). intro. eexists _, _. split; [reflexivity|]. s_auto.
Qed.
Lemma out_ok_s : forall n o, sim (out_ok n o) (out_ok n o). Proof. intros. unfold out_ok. s_auto. Qed.
Lemma rd_s : forall a b l, sim (rd a b l) (rd a b l). Proof. intros. unfold rd. s_auto. Qed.
#[local] Hint Resolve free_s alloc_s out_ok_s rd_s : sm.
Ltac s_post := intro x; repeat match goal with p : (_ * _)%type |- _ => destruct p end; eexists _, _; (split; [reflexivity|]); s_auto.
Lemma call_import_s : forall kt key, sim (@call_import E kt key) (@call_import E1 kt key).
Proof.
  intros. unfold call_import. apply bind_s; [apply getc_s|intro c]. apply bind_s; [apply need_s|intro f]. refine (ask_s _ _ (fun t => @o_import E f t kt key) (fun y => let '(r, kid) := y in emit (EvImport kt key r kid) ;;; ret (r, kid)) _). s_post.
Qed.
#[local] Hint Resolve call_import_s : sm.
Lemma call_destroy_s : forall kid, sim (@call_destroy E kid) (@call_destroy E1 kid).
Proof.
  intros. unfold call_destroy. apply bind_s; [apply getc_s|intro c]. apply bind_s; [apply need_s|intro f]. refine (ask_s _ _ (fun t => @o_destroy E f t kid) (fun r => emit (EvDestroy kid r) ;;; ret r) _). s_post.
Qed.
#[local] Hint Resolve call_destroy_s : sm.
Lemma call_mkpair_s : forall kid npriv npub, sim (@call_mkpair E kid npriv npub) (@call_mkpair E1 kid npriv npub).
Proof.
  intros. unfold call_mkpair. apply bind_s; [apply getc_s|intro c]. apply bind_s; [apply need_s|intro f]. refine (ask_s _ _ (fun t => @o_mkpair E f t kid npriv npub) (fun y => let '(r, priv, pub) := y in emit (EvMkPair kid r priv pub) ;;; out_ok npriv priv ;;; out_ok npub pub ;;; ret (r, priv, pub)) _). s_post.
Qed.
#[local] Hint Resolve call_mkpair_s : sm.
Lemma call_agree_s : forall kid peer n, sim (@call_agree E kid peer n) (@call_agree E1 kid peer n).
Proof.
  intros. unfold call_agree. apply bind_s; [apply getc_s|intro c]. apply bind_s; [apply need_s|intro f]. refine (ask_s _ _ (fun t => @o_agree E f t kid peer n) (fun y => let '(r, out) := y in emit (EvAgree kid peer r out) ;;; out_ok n out ;;; ret (r, out)) _). s_post.
Qed.
#[local] Hint Resolve call_agree_s : sm.
Lemma call_sign_s : forall kid input n, sim (@call_sign E kid input n) (@call_sign E1 kid input n).
Proof.
  intros. unfold call_sign. apply bind_s; [apply getc_s|intro c]. apply bind_s; [apply need_s|intro f]. refine (ask_s _ _ (fun t => @o_sign E f t kid input n) (fun y => let '(r, out) := y in emit (EvSign kid input r out) ;;; out_ok n out ;;; ret (r, out)) _). s_post.
Qed.
#[local] Hint Resolve call_sign_s : sm.
Lemma call_verify_s : forall kid input sign, sim (@call_verify E kid input sign) (@call_verify E1 kid input sign).
Proof.
  intros. unfold call_verify. apply bind_s; [apply getc_s|intro c]. apply bind_s; [apply need_s|intro f]. refine (ask_s _ _ (fun t => @o_verify E f t kid input sign) (fun r => emit (EvVerify kid input sign r) ;;; ret r) _). s_post.
Qed.
#[local] Hint Resolve call_verify_s : sm.
Lemma call_extract_s : forall kid salt n, sim (@call_extract E kid salt n) (@call_extract E1 kid salt n).
Proof.
  intros. unfold call_extract. apply bind_s; [apply getc_s|intro c]. apply bind_s; [apply need_s|intro f]. refine (ask_s _ _ (fun t => @o_extract E f t kid salt n) (fun y => let '(r, out) := y in emit (EvExtract kid salt r out) ;;; out_ok n out ;;; ret (r, out)) _). s_post.
Qed.
#[local] Hint Resolve call_extract_s : sm.
Lemma call_expand_s : forall kid info n, sim (@call_expand E kid info n) (@call_expand E1 kid info n).
Proof.
  intros. unfold call_expand. apply bind_s; [apply getc_s|intro c]. apply bind_s; [apply need_s|intro f]. refine (ask_s _ _ (fun t => @o_expand E f t kid info n) (fun y => let '(r, out) := y in emit (EvExpand kid info n r out) ;;; out_ok n out ;;; ret (r, out)) _). s_post.
Qed.
#[local] Hint Resolve call_expand_s : sm.
Lemma call_encrypt_s : forall kid nonce aad ptxt n, sim (@call_encrypt E kid nonce aad ptxt n) (@call_encrypt E1 kid nonce aad ptxt n).
Proof.
  intros. unfold call_encrypt. apply bind_s; [apply getc_s|intro c]. apply bind_s; [apply need_s|intro f]. refine (ask_s _ _ (fun t => @o_encrypt E f t kid nonce aad ptxt n) (fun y => let '(r, out) := y in emit (EvEncrypt kid nonce aad ptxt r out) ;;; out_ok n out ;;; ret (r, out)) _). s_post.
Qed.
#[local] Hint Resolve call_encrypt_s : sm.
Lemma call_decrypt_s : forall kid nonce aad ctxt n, sim (@call_decrypt E kid nonce aad ctxt n) (@call_decrypt E1 kid nonce aad ctxt n).
Proof.
  intros. unfold call_decrypt. apply bind_s; [apply getc_s|intro c]. apply bind_s; [apply need_s|intro f]. refine (ask_s _ _ (fun t => @o_decrypt E f t kid nonce aad ctxt n) (fun y => let '(r, out) := y in emit (EvDecrypt kid nonce aad ctxt r out) ;;; out_ok n out ;;; ret (r, out)) _). s_post.
Qed.
#[local] Hint Resolve call_decrypt_s : sm.
Lemma call_hash_s : forall input n, sim (@call_hash E input n) (@call_hash E1 input n).
Proof.
  intros. unfold call_hash. apply bind_s; [apply getc_s|intro c]. apply bind_s; [apply need_s|intro f]. refine (ask_s _ _ (fun t => @o_hash E f t input n) (fun y => let '(r, out) := y in emit (EvHash input n r out) ;;; out_ok n out ;;; ret (r, out)) _). s_post.
Qed.
#[local] Hint Resolve call_hash_s : sm.
Lemma call_fetch_s : sim (@call_fetch E ) (@call_fetch E1 ).
Proof.
  intros. unfold call_fetch. apply bind_s; [apply getc_s|intro c]. apply bind_s; [apply need_s|intro f]. refine (ask_s _ _ (fun t => @o_fetch E f t) (fun y => let '(r, cr) := y in emit (EvFetch r cr) ;;; ret (r, cr)) _). s_post.
Qed.
#[local] Hint Resolve call_fetch_s : sm.
Lemma call_cverify_s : forall cr, sim (@call_cverify E cr) (@call_cverify E1 cr).
Proof.
  intros. unfold call_cverify. apply bind_s; [apply getc_s|intro c]. apply bind_s; [apply need_s|intro f]. refine (ask_s _ _ (fun t => @o_cverify E f t cr) (fun y => let '(r, cr', pub) := y in emit (EvCredVerify cr r cr' pub) ;;; ret (r, cr', pub)) _). s_post.
Qed.
#[local] Hint Resolve call_cverify_s : sm.
Lemma call_compose_s : forall f msg n, sim (@call_compose E f msg n) (@call_compose E1 f msg n).
Proof.
  intros. unfold call_compose. refine (ask_s _ _ (fun t => @o_compose E f t msg n) (fun y => let '(r, l) := y in emit (EvEadCompose msg r l) ;;; ret (r, l)) _). s_post.
Qed.
#[local] Hint Resolve call_compose_s : sm.
Lemma call_process_s : forall f msg l, sim (@call_process E f msg l) (@call_process E1 f msg l).
Proof.
  intros. unfold call_process. refine (ask_s _ _ (fun t => @o_process E f t msg l) (fun r => emit (EvEadProcess msg l r) ;;; ret r) _). s_post.
Qed.
#[local] Hint Resolve call_process_s : sm.
Lemma rd_ptr_s : forall (x0 : Z) (x1 : option bytes), sim (rd_ptr x0 x1) (rd_ptr x0 x1). Proof. intros. unfold rd_ptr. s_auto. Qed.
#[local] Hint Resolve rd_ptr_s : sm.
Lemma get_suite_s : sim (@get_suite E ) (@get_suite E1 ). Proof. unfold get_suite. s_auto. Qed.
#[local] Hint Resolve get_suite_s : sm.
Lemma get_th_s : sim (@get_th E ) (@get_th E1 ). Proof. unfold get_th. s_auto. Qed.
#[local] Hint Resolve get_th_s : sm.
Lemma get_prk_s : sim (@get_prk E ) (@get_prk E1 ). Proof. unfold get_prk. s_auto. Qed.
#[local] Hint Resolve get_prk_s : sm.
Lemma get_dh_pub_s : sim (@get_dh_pub E ) (@get_dh_pub E1 ). Proof. unfold get_dh_pub. s_auto. Qed.
#[local] Hint Resolve get_dh_pub_s : sm.
Lemma get_dh_priv_s : sim (@get_dh_priv E ) (@get_dh_priv E1 ). Proof. unfold get_dh_priv. s_auto. Qed.
#[local] Hint Resolve get_dh_priv_s : sm.
Lemma get_dh_peer_s : sim (@get_dh_peer E ) (@get_dh_peer E1 ). Proof. unfold get_dh_peer. s_auto. Qed.
#[local] Hint Resolve get_dh_peer_s : sm.
Lemma get_dh_secret_s : sim (@get_dh_secret E ) (@get_dh_secret E1 ). Proof. unfold get_dh_secret. s_auto. Qed.
#[local] Hint Resolve get_dh_secret_s : sm.
Lemma wr_s : forall (x0 : Z) (x1 : bytes), sim (wr x0 x1) (wr x0 x1). Proof. intros. unfold wr. s_auto. Qed.
#[local] Hint Resolve wr_s : sm.
Lemma put_th_s : forall (x0 : bytes), sim (@put_th E x0) (@put_th E1 x0). Proof. intros. unfold put_th. s_auto. Qed.
#[local] Hint Resolve put_th_s : sm.
Lemma put_prk_s : forall (x0 : bytes), sim (@put_prk E x0) (@put_prk E1 x0). Proof. intros. unfold put_prk. s_auto. Qed.
#[local] Hint Resolve put_prk_s : sm.
Lemma put_dh_pub_s : forall (x0 : bytes), sim (@put_dh_pub E x0) (@put_dh_pub E1 x0). Proof. intros. unfold put_dh_pub. s_auto. Qed.
#[local] Hint Resolve put_dh_pub_s : sm.
Lemma put_dh_priv_s : forall (x0 : bytes), sim (@put_dh_priv E x0) (@put_dh_priv E1 x0). Proof. intros. unfold put_dh_priv. s_auto. Qed.
#[local] Hint Resolve put_dh_priv_s : sm.
Lemma put_dh_peer_s : forall (x0 : bytes), sim (@put_dh_peer E x0) (@put_dh_peer E1 x0). Proof. intros. unfold put_dh_peer. s_auto. Qed.
#[local] Hint Resolve put_dh_peer_s : sm.
Lemma put_dh_secret_s : forall (x0 : bytes), sim (@put_dh_secret E x0) (@put_dh_secret E1 x0). Proof. intros. unfold put_dh_secret. s_auto. Qed.
#[local] Hint Resolve put_dh_secret_s : sm.
Lemma comp_id_cred_len_s : forall (x0 : creds), sim (comp_id_cred_len x0) (comp_id_cred_len x0). Proof. intros. unfold comp_id_cred_len. s_auto. Qed.
#[local] Hint Resolve comp_id_cred_len_s : sm.
Lemma comp_cred_len_s : forall (x0 : creds), sim (comp_cred_len x0) (comp_cred_len x0). Proof. intros. unfold comp_cred_len. s_auto. Qed.
#[local] Hint Resolve comp_cred_len_s : sm.
Lemma rd_tok_s : forall (x0 : Z) (x1 : option bytes), sim (rd_tok x0 x1) (rd_tok x0 x1). Proof. intros. unfold rd_tok. s_auto. Qed.
#[local] Hint Resolve rd_tok_s : sm.
Lemma read_toks_s : forall (x0 : (token -> bool)) (x1 : list token), sim (read_toks x0 x1) (read_toks x0 x1). Proof. intros. revert x0; induction x1; intros; cbn [read_toks]; s_auto. Qed.
#[local] Hint Resolve read_toks_s : sm.
Lemma encode_tokens_s : forall (x0 : (token -> bool)) (x1 : Z) (x2 : list token), sim (encode_tokens x0 x1 x2) (encode_tokens x0 x1 x2). Proof. intros. unfold encode_tokens. s_auto. Qed.
#[local] Hint Resolve encode_tokens_s : sm.
Lemma kid_compact_encoding_s : forall (x0 : creds), sim (@kid_compact_encoding E x0) (@kid_compact_encoding E1 x0). Proof. intros. unfold kid_compact_encoding. s_auto. Qed.
#[local] Hint Resolve kid_compact_encoding_s : sm.
Lemma id_cred_of_s : forall (x0 : creds), sim (id_cred_of x0) (id_cred_of x0). Proof. intros. unfold id_cred_of. s_auto. Qed.
#[local] Hint Resolve id_cred_of_s : sm.
Lemma cred_bytes_s : forall (x0 : creds) (x1 : Z), sim (cred_bytes x0 x1) (cred_bytes x0 x1). Proof. intros. unfold cred_bytes. s_auto. Qed.
#[local] Hint Resolve cred_bytes_s : sm.
Lemma comp_mac_context_length_s : forall (x0 : creds), sim (comp_mac_context_length x0) (comp_mac_context_length x0). Proof. intros. unfold comp_mac_context_length. s_auto. Qed.
#[local] Hint Resolve comp_mac_context_length_s : sm.
Lemma comp_mac_context_s : forall (x0 : creds) (x1 : Z), sim (@comp_mac_context E x0 x1) (@comp_mac_context E1 x0 x1). Proof. intros. unfold comp_mac_context. s_auto. Qed.
#[local] Hint Resolve comp_mac_context_s : sm.
Lemma comp_mac_length_s : sim (@comp_mac_length E ) (@comp_mac_length E1 ). Proof. unfold comp_mac_length. s_auto. Qed.
#[local] Hint Resolve comp_mac_length_s : sm.
Lemma comp_sign_or_mac_length_s : sim (@comp_sign_or_mac_length E ) (@comp_sign_or_mac_length E1 ). Proof. unfold comp_sign_or_mac_length. s_auto. Qed.
#[local] Hint Resolve comp_sign_or_mac_length_s : sm.
Lemma comp_mac_s : forall (x0 : macctx) (x1 : Z), sim (@comp_mac E x0 x1) (@comp_mac E1 x0 x1). Proof. intros. unfold comp_mac. s_auto. Qed.
#[local] Hint Resolve comp_mac_s : sm.
Lemma sign_cose_sign_1_s : forall (x0 : creds) (x1 : macctx) (x2 : bytes) (x3 : Z), sim (@sign_cose_sign_1 E x0 x1 x2 x3) (@sign_cose_sign_1 E1 x0 x1 x2 x3). Proof. intros. unfold sign_cose_sign_1. s_auto. Qed.
#[local] Hint Resolve sign_cose_sign_1_s : sm.
Lemma verify_cose_sign_1_s : forall (x0 : macctx) (x1 : bytes) (x2 : bytes) (x3 : bytes), sim (@verify_cose_sign_1 E x0 x1 x2 x3) (@verify_cose_sign_1 E1 x0 x1 x2 x3). Proof. intros. unfold verify_cose_sign_1. s_auto. Qed.
#[local] Hint Resolve verify_cose_sign_1_s : sm.
Lemma comp_sign_or_mac_s : forall (x0 : creds) (x1 : macctx) (x2 : bytes) (x3 : Z), sim (@comp_sign_or_mac E x0 x1 x2 x3) (@comp_sign_or_mac E1 x0 x1 x2 x3). Proof. intros. unfold comp_sign_or_mac. s_auto. Qed.
#[local] Hint Resolve comp_sign_or_mac_s : sm.
Lemma verify_sign_or_mac_s : forall (x0 : macctx) (x1 : bytes) (x2 : bytes) (x3 : bytes), sim (@verify_sign_or_mac E x0 x1 x2 x3) (@verify_sign_or_mac E1 x0 x1 x2 x3). Proof. intros. unfold verify_sign_or_mac. s_auto. Qed.
#[local] Hint Resolve verify_sign_or_mac_s : sm.
Lemma enter_s : forall (x0 : Z) (x1 : Z), sim (enter x0 x1) (enter x0 x1). Proof. intros. unfold enter. s_auto. Qed.
#[local] Hint Resolve enter_s : sm.
Lemma ead_compose_s : sim (@ead_compose E ) (@ead_compose E1 ). Proof. unfold ead_compose. s_auto. Qed.
#[local] Hint Resolve ead_compose_s : sm.
Lemma hash_into_th_s : forall (x0 : Z) (x1 : bytes), sim (@hash_into_th E x0 x1) (@hash_into_th E1 x0 x1). Proof. intros. unfold hash_into_th. s_auto. Qed.
#[local] Hint Resolve hash_into_th_s : sm.
Lemma message_1_compose_s : forall (x0 : bool) (x1 : Z), sim (@message_1_compose E x0 x1) (@message_1_compose E1 x0 x1). Proof. intros. unfold message_1_compose. s_auto. Qed.
#[local] Hint Resolve message_1_compose_s : sm.
Lemma message_1_process_s : forall (x0 : bool) (x1 : bytes), sim (@message_1_process E x0 x1) (@message_1_process E1 x0 x1). Proof. intros. unfold message_1_process. s_auto. Qed.
#[local] Hint Resolve message_1_process_s : sm.
Lemma gen_dh_keys_s : sim (@gen_dh_keys E ) (@gen_dh_keys E1 ). Proof. unfold gen_dh_keys. s_auto. Qed.
#[local] Hint Resolve gen_dh_keys_s : sm.
Lemma comp_dh_secret_s : sim (@comp_dh_secret E ) (@comp_dh_secret E1 ). Proof. unfold comp_dh_secret. s_auto. Qed.
#[local] Hint Resolve comp_dh_secret_s : sm.
Lemma comp_th_2_s : sim (@comp_th_2 E ) (@comp_th_2 E1 ). Proof. unfold comp_th_2. s_auto. Qed.
#[local] Hint Resolve comp_th_2_s : sm.
Lemma comp_prk_2e_s : sim (@comp_prk_2e E ) (@comp_prk_2e E1 ). Proof. unfold comp_prk_2e. s_auto. Qed.
#[local] Hint Resolve comp_prk_2e_s : sm.
Lemma kdf_s : forall x len l cx cx' k k' n, sim cx cx' -> sim k k' -> sim (@kdf E x len l cx k n) (@kdf E1 x len l cx' k' n).
Proof. intros x len l cx cx' k k' n H1 H2. unfold kdf. s_norm. repeat first [exact H1|exact H2|s_step]. Qed.
#[local] Hint Extern 1 (sim (kdf _ _ _ _ _ _) _) => (apply kdf_s; solve [auto 2 with sm nocore]) : sm.
Lemma comp_salt_3e2m_s : forall (x0 : Z), sim (@comp_salt_3e2m E x0) (@comp_salt_3e2m E1 x0). Proof. intros. unfold comp_salt_3e2m. s_auto. Qed.
#[local] Hint Resolve comp_salt_3e2m_s : sm.
Lemma agree_eph_s : forall (x0 : bytes) (x1 : Z), sim (@agree_eph E x0 x1) (@agree_eph E1 x0 x1). Proof. intros. unfold agree_eph. s_auto. Qed.
#[local] Hint Resolve agree_eph_s : sm.
Lemma agree_static_s : forall (x0 : creds) (x1 : Z), sim (@agree_static E x0 x1) (@agree_static E1 x0 x1). Proof. intros. unfold agree_static. s_auto. Qed.
#[local] Hint Resolve agree_static_s : sm.
Lemma comp_grx_s : forall (x0 : creds) (x1 : bytes) (x2 : Z), sim (@comp_grx E x0 x1 x2) (@comp_grx E1 x0 x1 x2). Proof. intros. unfold comp_grx. s_auto. Qed.
#[local] Hint Resolve comp_grx_s : sm.
Lemma prk_static_s : forall f f' g g' n, (forall x, sim (f x) (f' x)) -> (forall x, sim (g x) (g' x)) -> sim (@prk_static E f g n) (@prk_static E1 f' g' n).
Proof. intros f f' g g' n H1 H2. unfold prk_static. s_norm. repeat first [apply H1|apply H2|s_step]. Qed.
#[local] Hint Extern 1 (sim (prk_static _ _ _) _) => (apply prk_static_s; intro; solve [auto 2 with sm nocore]) : sm.
Lemma comp_prk_3e2m_s : forall (x0 : creds) (x1 : bytes), sim (@comp_prk_3e2m E x0 x1) (@comp_prk_3e2m E1 x0 x1). Proof. intros. unfold comp_prk_3e2m. s_auto. Qed.
#[local] Hint Resolve comp_prk_3e2m_s : sm.
Lemma comp_plaintext_len_s : forall (x0 : macctx) (x1 : Z), sim (comp_plaintext_len x0 x1) (comp_plaintext_len x0 x1). Proof. intros. unfold comp_plaintext_len. s_auto. Qed.
#[local] Hint Resolve comp_plaintext_len_s : sm.
Lemma fill_plaintext_s : forall (x0 : macctx) (x1 : bytes) (x2 : bytes) (x3 : Z), sim (fill_plaintext x0 x1 x2 x3) (fill_plaintext x0 x1 x2 x3). Proof. intros. unfold fill_plaintext. s_auto. Qed.
#[local] Hint Resolve fill_plaintext_s : sm.
Lemma prepare_plaintext_2_s : forall (x0 : macctx) (x1 : bytes) (x2 : Z), sim (prepare_plaintext_2 x0 x1 x2) (prepare_plaintext_2 x0 x1 x2). Proof. intros. unfold prepare_plaintext_2. s_auto. Qed.
#[local] Hint Resolve prepare_plaintext_2_s : sm.
Lemma comp_keystream_s : forall (x0 : bytes) (x1 : Z), sim (@comp_keystream E x0 x1) (@comp_keystream E1 x0 x1). Proof. intros. unfold comp_keystream. s_auto. Qed.
#[local] Hint Resolve comp_keystream_s : sm.
Lemma prepare_message_2_s : forall (x0 : bytes) (x1 : Z), sim (@prepare_message_2 E x0 x1) (@prepare_message_2 E1 x0 x1). Proof. intros. unfold prepare_message_2. s_auto. Qed.
#[local] Hint Resolve prepare_message_2_s : sm.
Lemma comp_ciphertext_2_len_s : forall (x0 : bytes), sim (@comp_ciphertext_2_len E x0) (@comp_ciphertext_2_len E1 x0). Proof. intros. unfold comp_ciphertext_2_len. s_auto. Qed.
#[local] Hint Resolve comp_ciphertext_2_len_s : sm.
Lemma parse_msg_2_s : forall (x0 : bytes) (x1 : Z), sim (@parse_msg_2 E x0 x1) (@parse_msg_2 E1 x0 x1). Proof. intros. unfold parse_msg_2. s_auto. Qed.
#[local] Hint Resolve parse_msg_2_s : sm.
Lemma parse_id_cred_s : forall (x0 : bool) (x1 : idv), sim (@parse_id_cred E x0 x1) (@parse_id_cred E1 x0 x1). Proof. intros. unfold parse_id_cred. s_auto. Qed.
#[local] Hint Resolve parse_id_cred_s : sm.
Lemma store_tokens_s : forall (x0 : list token), sim (@store_tokens E x0) (@store_tokens E1 x0). Proof. intros. unfold store_tokens. s_auto. Qed.
#[local] Hint Resolve store_tokens_s : sm.
Lemma store_peer_cid_s : forall (x0 : cidv), sim (@store_peer_cid E x0) (@store_peer_cid E1 x0). Proof. intros. unfold store_peer_cid. s_auto. Qed.
#[local] Hint Resolve store_peer_cid_s : sm.
Lemma parse_plaintext_2_s : forall (x0 : bytes), sim (@parse_plaintext_2 E x0) (@parse_plaintext_2 E1 x0). Proof. intros. unfold parse_plaintext_2. s_auto. Qed.
#[local] Hint Resolve parse_plaintext_2_s : sm.
Lemma comp_th_next_s : forall (x0 : Z) (x1 : Z) (x2 : bool) (x3 : macctx) (x4 : bytes), sim (@comp_th_next E x0 x1 x2 x3 x4) (@comp_th_next E1 x0 x1 x2 x3 x4). Proof. intros. unfold comp_th_next. s_auto. Qed.
#[local] Hint Resolve comp_th_next_s : sm.
Lemma comp_th_3_s : forall (x0 : macctx) (x1 : bytes), sim (@comp_th_3 E x0 x1) (@comp_th_3 E1 x0 x1). Proof. intros. unfold comp_th_3. s_auto. Qed.
#[local] Hint Resolve comp_th_3_s : sm.
Lemma frees_s : forall (x0 : list buf), sim (frees x0) (frees x0). Proof. intros. induction x0; cbn [frees]; s_auto. Qed.
#[local] Hint Resolve frees_s : sm.
Lemma fail_s : forall (x0 : list buf) (x1 : Z), sim (fail x0 x1) (fail x0 x1). Proof. intros. unfold fail. s_auto. Qed.
#[local] Hint Resolve fail_s : sm.
Lemma failp_s : forall (x0 : list buf) (x1 : Z), sim (failp x0 x1) (failp x0 x1). Proof. intros. unfold failp. s_auto. Qed.
#[local] Hint Resolve failp_s : sm.
Lemma message_2_compose_s : forall (x0 : bool) (x1 : Z), sim (@message_2_compose E x0 x1) (@message_2_compose E1 x0 x1). Proof. intros. unfold message_2_compose. s_auto. Qed.
#[local] Hint Resolve message_2_compose_s : sm.
Lemma ead_process_s : sim (@ead_process E ) (@ead_process E1 ). Proof. unfold ead_process. s_auto. Qed.
#[local] Hint Resolve ead_process_s : sm.
Lemma message_2_process_s : forall (x0 : bool) (x1 : bytes), sim (@message_2_process E x0 x1) (@message_2_process E1 x0 x1). Proof. intros. unfold message_2_process. s_auto. Qed.
#[local] Hint Resolve message_2_process_s : sm.
Lemma comp_salt_4e3m_s : forall (x0 : Z), sim (@comp_salt_4e3m E x0) (@comp_salt_4e3m E1 x0). Proof. intros. unfold comp_salt_4e3m. s_auto. Qed.
#[local] Hint Resolve comp_salt_4e3m_s : sm.
Lemma comp_giy_s : forall (x0 : creds) (x1 : bytes) (x2 : Z), sim (@comp_giy E x0 x1 x2) (@comp_giy E1 x0 x1 x2). Proof. intros. unfold comp_giy. s_auto. Qed.
#[local] Hint Resolve comp_giy_s : sm.
Lemma comp_prk_4e3m_s : forall (x0 : creds) (x1 : bytes), sim (@comp_prk_4e3m E x0 x1) (@comp_prk_4e3m E1 x0 x1). Proof. intros. unfold comp_prk_4e3m. s_auto. Qed.
#[local] Hint Resolve comp_prk_4e3m_s : sm.
Lemma prepare_plaintext_3_s : forall (x0 : macctx) (x1 : bytes) (x2 : Z), sim (prepare_plaintext_3 x0 x1 x2) (prepare_plaintext_3 x0 x1 x2). Proof. intros. unfold prepare_plaintext_3. s_auto. Qed.
#[local] Hint Resolve prepare_plaintext_3_s : sm.
Lemma expand_part_s : forall (x0 : Z) (x1 : Z) (x2 : Z), sim (@expand_part E x0 x1 x2) (@expand_part E1 x0 x1 x2). Proof. intros. unfold expand_part. s_auto. Qed.
#[local] Hint Resolve expand_part_s : sm.
Lemma key_iv_aad_s : forall (x0 : Z) (x1 : Z) (x2 : Z), sim (@key_iv_aad E x0 x1 x2) (@key_iv_aad E1 x0 x1 x2). Proof. intros. unfold key_iv_aad. s_auto. Qed.
#[local] Hint Resolve key_iv_aad_s : sm.
Lemma comp_key_iv_aad_3_s : forall (x0 : Z) (x1 : Z) (x2 : Z), sim (@comp_key_iv_aad_3 E x0 x1 x2) (@comp_key_iv_aad_3 E1 x0 x1 x2). Proof. intros. unfold comp_key_iv_aad_3. s_auto. Qed.
#[local] Hint Resolve comp_key_iv_aad_3_s : sm.
Lemma aead_encrypt_s : forall (x0 : bytes) (x1 : bytes) (x2 : bytes) (x3 : bytes) (x4 : Z), sim (@aead_encrypt E x0 x1 x2 x3 x4) (@aead_encrypt E1 x0 x1 x2 x3 x4). Proof. intros. unfold aead_encrypt. s_auto. Qed.
#[local] Hint Resolve aead_encrypt_s : sm.
Lemma comp_ciphertext_s : forall (x0 : bytes) (x1 : bytes) (x2 : bytes) (x3 : bytes) (x4 : Z), sim (@comp_ciphertext E x0 x1 x2 x3 x4) (@comp_ciphertext E1 x0 x1 x2 x3 x4). Proof. intros. unfold comp_ciphertext. s_auto. Qed.
#[local] Hint Resolve comp_ciphertext_s : sm.
Lemma aead_decrypt_s : forall (x0 : bytes) (x1 : bytes) (x2 : bytes) (x3 : bytes) (x4 : Z), sim (@aead_decrypt E x0 x1 x2 x3 x4) (@aead_decrypt E1 x0 x1 x2 x3 x4). Proof. intros. unfold aead_decrypt. s_auto. Qed.
#[local] Hint Resolve aead_decrypt_s : sm.
Lemma decrypt_ciphertext_3_s : forall (x0 : bytes) (x1 : bytes) (x2 : bytes) (x3 : bytes) (x4 : Z), sim (@decrypt_ciphertext_3 E x0 x1 x2 x3 x4) (@decrypt_ciphertext_3 E1 x0 x1 x2 x3 x4). Proof. intros. unfold decrypt_ciphertext_3. s_auto. Qed.
#[local] Hint Resolve decrypt_ciphertext_3_s : sm.
Lemma comp_th_4_s : forall (x0 : macctx) (x1 : bytes), sim (@comp_th_4 E x0 x1) (@comp_th_4 E1 x0 x1). Proof. intros. unfold comp_th_4. s_auto. Qed.
#[local] Hint Resolve comp_th_4_s : sm.
Lemma gen_msg_3_s : forall (x0 : bytes) (x1 : Z), sim (gen_msg_3 x0 x1) (gen_msg_3 x0 x1). Proof. intros. unfold gen_msg_3. s_auto. Qed.
#[local] Hint Resolve gen_msg_3_s : sm.
Lemma parse_plaintext_3_s : forall (x0 : bytes), sim (@parse_plaintext_3 E x0) (@parse_plaintext_3 E1 x0). Proof. intros. unfold parse_plaintext_3. s_auto. Qed.
#[local] Hint Resolve parse_plaintext_3_s : sm.
Lemma message_3_compose_s : forall (x0 : bool) (x1 : Z), sim (@message_3_compose E x0 x1) (@message_3_compose E1 x0 x1). Proof. intros. unfold message_3_compose. s_auto. Qed.
#[local] Hint Resolve message_3_compose_s : sm.
Lemma message_3_process_s : forall (x0 : bool) (x1 : bytes), sim (@message_3_process E x0 x1) (@message_3_process E1 x0 x1). Proof. intros. unfold message_3_process. s_auto. Qed.
#[local] Hint Resolve message_3_process_s : sm.
Lemma prepare_plaintext_4_s : forall (x0 : Z), sim (prepare_plaintext_4 x0) (prepare_plaintext_4 x0). Proof. intros. unfold prepare_plaintext_4. s_auto. Qed.
#[local] Hint Resolve prepare_plaintext_4_s : sm.
Lemma compute_key_iv_aad_4_s : forall (x0 : Z) (x1 : Z) (x2 : Z), sim (@compute_key_iv_aad_4 E x0 x1 x2) (@compute_key_iv_aad_4 E1 x0 x1 x2). Proof. intros. unfold compute_key_iv_aad_4. s_auto. Qed.
#[local] Hint Resolve compute_key_iv_aad_4_s : sm.
Lemma message_4_compose_s : forall (x0 : bool) (x1 : Z), sim (@message_4_compose E x0 x1) (@message_4_compose E1 x0 x1). Proof. intros. unfold message_4_compose. s_auto. Qed.
#[local] Hint Resolve message_4_compose_s : sm.
Lemma message_4_process_s : forall (x0 : bool) (x1 : bytes), sim (@message_4_process E x0 x1) (@message_4_process E1 x0 x1). Proof. intros. unfold message_4_process. s_auto. Qed.
#[local] Hint Resolve message_4_process_s : sm.
Lemma kdf_into_prk_s : forall a b cx cx', sim cx cx' -> sim (@kdf_into_prk E a b cx) (@kdf_into_prk E1 a b cx').
Proof. intros a b cx cx' H1. unfold kdf_into_prk. s_norm. repeat first [exact H1|s_step]. Qed.
#[local] Hint Extern 1 (sim (kdf_into_prk _ _ _) _) => (apply kdf_into_prk_s; solve [auto 2 with sm nocore]) : sm.
Lemma compute_prk_out_s : sim (@compute_prk_out E ) (@compute_prk_out E1 ). Proof. unfold compute_prk_out. s_auto. Qed.
#[local] Hint Resolve compute_prk_out_s : sm.
Lemma compute_new_prk_out_s : forall (x0 : bytes), sim (@compute_new_prk_out E x0) (@compute_new_prk_out E1 x0). Proof. intros. unfold compute_new_prk_out. s_auto. Qed.
#[local] Hint Resolve compute_new_prk_out_s : sm.
Lemma compute_prk_exporter_s : forall (x0 : Z), sim (@compute_prk_exporter E x0) (@compute_prk_exporter E1 x0). Proof. intros. unfold compute_prk_exporter. s_auto. Qed.
#[local] Hint Resolve compute_prk_exporter_s : sm.
Lemma export_prk_exporter_s : forall (x0 : bool) (x1 : Z) (x2 : Z), sim (@export_prk_exporter E x0 x1 x2) (@export_prk_exporter E1 x0 x1 x2). Proof. intros. unfold export_prk_exporter. s_auto. Qed.
#[local] Hint Resolve export_prk_exporter_s : sm.
Lemma export_key_update_s : forall (x0 : bool) (x1 : bytes), sim (@export_key_update E x0 x1) (@export_key_update E1 x0 x1). Proof. intros. unfold export_key_update. s_auto. Qed.
#[local] Hint Resolve export_key_update_s : sm.
Lemma export_oscore_session_s : forall (x0 : bool) (x1 : Z) (x2 : Z) (x3 : Z) (x4 : Z), sim (@export_oscore_session E x0 x1 x2 x3 x4) (@export_oscore_session E1 x0 x1 x2 x3 x4). Proof. intros. unfold export_oscore_session. s_auto. Qed.
#[local] Hint Resolve export_oscore_session_s : sm.

Lemma cfg_s : forall f, sim (cfg f) (cfg f). Proof. intros. unfold cfg. s_auto. Qed.
Lemma do_api_s : forall a, sim (@do_api E a) (@do_api E1 a).
Proof.
  intros []; cbn [do_api]; unfold msg_out, no_out; try exact (cfg_s _); s_auto.
Qed.
End Sim.

Lemma own_app : forall A i (l l' : list (nat * A)), own i (l ++ l') = own i l ++ own i l'.
Proof. intros. unfold own. now rewrite filter_app, map_app. Qed.
Lemma own_mine : forall A i (l : list A), own i (map (pair i) l) = l.
Proof. intros. unfold own. induction l as [|x l IH]; [reflexivity|]. cbn. rewrite Nat.eqb_refl. cbn. now rewrite IH. Qed.
Lemma own_other : forall A i j (l : list A), j <> i -> own i (map (pair j) l) = [].
Proof. intros A i j l H. unfold own. induction l as [|x l IH]; [reflexivity|]. cbn. apply Nat.eqb_neq in H. now rewrite H. Qed.
Lemma snd_mine : forall A (i : nat) (l : list A), map (@snd nat A) (map (pair i) l) = l.
Proof. intros. rewrite map_map. apply map_id. Qed.

Section Apart.
Context {E : env}.
Definition settled (s : system) : Prop := forall b, live b (map snd (s_log s)) = 0 /\ forall i, live b (own i (s_log s)) = 0.
Lemma call_on_new : forall i a s r s', settled s -> call_on i a s = inl (r, s') ->
  exists e c, do_api a (Wd (s_ctx s i) (map snd (s_log s))) = Ret r (Wd c (e ++ map snd (s_log s))) /\
    s_log s' = map (pair i) e ++ s_log s /\ settled s' /\ s_ctx s' i = c /\ forall j, j <> i -> s_ctx s' j = s_ctx s j.
Proof.
  intros i a s r s' B H. unfold call_on in H. destruct (do_api a _) as [r0 [c T]|u] eqn:D; [|discriminate H]. injection H as -> <-.
  assert (N : nonneg (Wd (s_ctx s i) (map snd (s_log s)))) by (intro b; cbn [w_tr]; destruct (B b) as [-> _]; lia).
  destruct (step_live _ _ _ _ N D) as [[e T'] L]. cbn [w_tr w_ctx] in *. subst T.
  assert (F : firstn (length (e ++ map snd (s_log s)) - length (s_log s)) (e ++ map snd (s_log s)) = e).
  { rewrite app_length, map_length, Nat.add_sub, firstn_app, firstn_all, Nat.sub_diag. apply app_nil_r. }
  rewrite F. exists e, c. cbn [s_log s_ctx]. split; [reflexivity|]. split; [reflexivity|]. split; [|split; [now rewrite Nat.eqb_refl|intros j J; apply Nat.eqb_neq in J; now rewrite J]].
  intro b. cbn [s_log]. specialize (L b). destruct (B b) as [B1 B2]. rewrite live_app in L. split.
  - rewrite map_app, snd_mine, live_app. lia.
  - intro j. rewrite own_app, live_app, B2. destruct (Nat.eq_dec i j) as [->|J]; [rewrite own_mine; lia|rewrite own_other by exact J; reflexivity].
Qed.
(** [phi] is right on a log: at every event of [i] it gives the history of the process. *)
Definition right (i : nat) (phi : list event -> list event) (G : list (nat * event)) : Prop :=
  forall G1 x G2, G = G1 ++ (i, x) :: G2 -> phi (own i G2) = map snd G2.
Lemma right_old : forall i phi G1 G2, right i phi (G1 ++ G2) -> right i phi G2.
Proof. intros i phi G1 G2 H A x B ->. apply (H (G1 ++ A) x B). now rewrite app_assoc. Qed.
Lemma right_meets : forall i phi e G, right i phi (map (pair i) e ++ G) -> meets phi e (own i G) (map snd G).
Proof.
  intros i phi e G H e1 x e2 ->. specialize (H (map (pair i) e1) x (map (pair i) e2 ++ G)).
  assert (Q : map (pair i) (e1 ++ x :: e2) ++ G = map (pair i) e1 ++ (i, x) :: map (pair i) e2 ++ G) by (rewrite map_app, <- app_assoc; reflexivity).
  specialize (H Q). now rewrite own_app, own_mine, map_app, snd_mine in H.
Qed.
Lemma schedule_own : forall l s rs s', settled s -> schedule l s = Finished rs s' ->
  settled s' /\ (exists G, s_log s' = G ++ s_log s) /\
  forall i phi, right i phi (s_log s') ->
    @runs (heard phi E) (own i l) (Wd (s_ctx s i) (own i (s_log s))) = Ret (own i rs) (Wd (s_ctx s' i) (own i (s_log s'))).
Proof.
  induction l as [|[j a] l IH]; intros s rs s' B H; cbn [schedule] in H.
  - injection H as <- <-. split; [exact B|]. split; [now exists []|]. intros i phi _. reflexivity.
  - destruct (call_on j a s) as [[r s1]|u] eqn:C; [|discriminate H]. destruct (schedule l s1) as [rs1 s2|] eqn:S; [|discriminate H]. injection H as <- <-.
    destruct (call_on_new _ _ _ _ _ B C) as (e & c & D & LG & B1 & C1 & C2). destruct (IH _ _ _ B1 S) as (B2 & [G G2] & R).
    split; [exact B2|]. split; [exists (G ++ map (pair j) e); now rewrite G2, LG, app_assoc|]. intros i phi HR. specialize (R i phi HR).
    destruct (Nat.eq_dec j i) as [->|J].
    + pose proof (do_api_s E phi a (s_ctx s i) (own i (s_log s)) (map snd (s_log s))) as K. rewrite D in K.
      destruct K as (e' & T & K); [intro b; destruct (B b) as [-> X]; apply X|]. cbn [w_tr w_ctx] in *. apply app_inv_tail in T as <-.
      assert (Q : own i ((i, a) :: l) = a :: own i l) by (unfold own; cbn; now rewrite Nat.eqb_refl). rewrite Q.
      assert (Q' : own i ((i, (a, r)) :: rs1) = (a, r) :: own i rs1) by (unfold own; cbn; now rewrite Nat.eqb_refl). rewrite Q'. cbn [runs]. unfold bind at 1.
      rewrite K; [|apply right_meets; rewrite <- LG; apply (right_old i phi G); rewrite <- G2; exact HR].
      unfold bind. rewrite LG, own_app, own_mine, C1 in R. rewrite R. reflexivity.
    + assert (Q : own i ((j, a) :: l) = own i l) by (unfold own; cbn; apply Nat.eqb_neq in J; now rewrite J). rewrite Q.
      assert (Q' : own i ((j, (a, r)) :: rs1) = own i rs1) by (unfold own; cbn; apply Nat.eqb_neq in J; now rewrite J). rewrite Q'.
      rewrite LG, own_app, own_other, C2 in R by congruence. exact R.
Qed.
Lemma schedule_stuck : forall l s j u, settled s -> schedule l s = Undefined j u -> exists l1 a l2 rs s1,
  l = l1 ++ (j, a) :: l2 /\ schedule l1 s = Finished rs s1 /\ do_api a (Wd (s_ctx s1 j) (map snd (s_log s1))) = Ub u.
Proof.
  induction l as [|[i a] l IH]; intros s j u B H; cbn [schedule] in H; [discriminate H|].
  destruct (call_on i a s) as [[r s1]|u'] eqn:C.
  - destruct (schedule l s1) as [|j' u'] eqn:S; [discriminate H|]. injection H as -> ->. destruct (call_on_new _ _ _ _ _ B C) as (_ & _ & _ & _ & B1 & _).
    destruct (IH _ _ _ B1 S) as (l1 & a' & l2 & rs & s2 & -> & S1 & D). exists ((i, a) :: l1), a', l2, ((i, (a, r)) :: rs), s2.
    split; [reflexivity|]. split; [|exact D]. cbn [schedule]. now rewrite C, S1.
  - injection H as -> ->. unfold call_on in C. destruct (do_api a _) as [|u'] eqn:D; [discriminate C|]. injection C as ->.
    exists [], a, l, [], s. split; [reflexivity|]. split; [reflexivity|exact D].
Qed.

(** The history of the process when the own history is [t]. *)
Fixpoint older (i n : nat) (G : list (nat * event)) : list (nat * event) :=
  match G with
  | [] => []
  | (j, e) :: G' => if Nat.eqb j i && Nat.eqb (length (own i G')) n then G' else older i n G'
  end.
Definition whole (i : nat) (G : list (nat * event)) (t : list event) : list event :=
  if Nat.ltb (length t) (length (own i G)) then map snd (older i (length t) G)
  else firstn (length t - length (own i G)) t ++ map snd G.
Lemma older_at : forall i G1 x G2, older i (length (own i G2)) (G1 ++ (i, x) :: G2) = G2.
Proof.
  intros i G1 x G2. induction G1 as [|[j e] G1 IH]; cbn [app older]; [now rewrite !Nat.eqb_refl|].
  replace (length (own i (G1 ++ (i, x) :: G2)) =? length (own i G2))%nat with false; [now rewrite andb_false_r|].
  symmetry. apply Nat.eqb_neq. rewrite own_app, app_length. change ((i, x) :: G2) with (map (pair i) [x] ++ G2). rewrite own_app, own_mine, app_length. cbn [length]. lia.
Qed.
Lemma whole_right : forall i G, right i (whole i G) G.
Proof.
  intros i G G1 x G2 Q. unfold whole.
  assert (L : (length (own i G2) < length (own i G))%nat).
  { rewrite Q, own_app, app_length. change ((i, x) :: G2) with (map (pair i) [x] ++ G2). rewrite own_app, own_mine, app_length. cbn [length]. lia. }
  apply Nat.ltb_lt in L. rewrite L. rewrite Q. now rewrite older_at.
Qed.
Lemma whole_next : forall i G e, whole i G (e ++ own i G) = e ++ map snd G.
Proof.
  intros i G e. unfold whole. rewrite app_length. replace (Nat.ltb _ _) with false by (symmetry; apply Nat.ltb_ge; lia).
  rewrite Nat.add_sub, firstn_app, firstn_all, Nat.sub_diag. cbn. now rewrite app_nil_r.
Qed.
Lemma runs_then : forall (F : env) l1 l2 w rs w1, runs l1 w = Ret rs w1 ->
  runs (l1 ++ l2) w = match runs l2 w1 with Ret rs' w' => Ret (rs ++ rs') w' | Ub u => Ub u end.
Proof.
  intros F. induction l1 as [|a l1 IH]; intros l2 w rs w1 H; cbn [runs app] in *.
  - injection H as <- <-. now destruct (runs l2 w).
  - unfold bind in *. destruct (do_api a w) as [r w2|]; [|discriminate H]. destruct (runs l1 w2) as [rs2 w3|] eqn:R; [|discriminate H]. injection H as <- <-.
    rewrite (IH l2 _ _ _ R). destruct (runs l2 w3); reflexivity.
Qed.
Lemma start_settled : forall cs, settled (Sys cs []). Proof. intros cs b. split; reflexivity. Qed.

Lemma apart : forall l cs, match schedule l (Sys cs []) with
  | Finished rs s => forall i, exists phi,
      @runs (heard phi E) (own i l) (Wd (cs i) []) = Ret (own i rs) (Wd (s_ctx s i) (own i (s_log s)))
  | Undefined j u => exists phi l1 a l2, l = l1 ++ (j, a) :: l2 /\ @runs (heard phi E) (own j (l1 ++ [(j, a)])) (Wd (cs j) []) = Ub u
  end.
Proof.
  intros l cs. destruct (schedule l _) as [rs s|j u] eqn:S.
  - intro i. exists (whole i (s_log s)). destruct (schedule_own _ _ _ _ (start_settled cs) S) as (_ & _ & R). apply (R i (whole i (s_log s))), whole_right.
  - destruct (schedule_stuck _ _ _ _ (start_settled cs) S) as (l1 & a & l2 & rs & s1 & -> & S1 & D).
    destruct (schedule_own _ _ _ _ (start_settled cs) S1) as (B & _ & R). exists (whole j (s_log s1)), l1, a, l2. split; [reflexivity|].
    specialize (R j _ (whole_right j (s_log s1))). cbn [s_ctx s_log] in R. rewrite own_app. change (own j [(j, a)]) with (own j (map (pair j) [a])). rewrite own_mine.
    rewrite (runs_then _ _ _ _ _ _ R). cbn [runs]. unfold bind.
    pose proof (do_api_s E (whole j (s_log s1)) a (s_ctx s1 j) (own j (s_log s1)) (map snd (s_log s1))) as K. rewrite D in K.
    rewrite K; [reflexivity|intro b; destruct (B b) as [-> X]; apply X|apply whole_next].
Qed.
Lemma transfer : forall (P : list api -> list (api * (Z * out)) -> world -> Prop) c,
  (forall (E' : env) l rs w, runs l (Wd c []) = Ret rs w -> P l rs w) ->
  forall l cs rs s i, cs i = c -> schedule l (Sys cs []) = Finished rs s -> P (own i l) (own i rs) (Wd (s_ctx s i) (own i (s_log s))).
Proof. intros P c H l cs rs s i <- S. pose proof (apart l cs) as A. rewrite S in A. destruct (A i) as [phi R]. exact (H _ _ _ _ R). Qed.
Lemma oblivious : (forall phi, heard phi E = E) -> forall l cs rs s, schedule l (Sys cs []) = Finished rs s ->
  forall i, runs (own i l) (Wd (cs i) []) = Ret (own i rs) (Wd (s_ctx s i) (own i (s_log s))).
Proof. intros H l cs rs s S i. pose proof (apart l cs) as A. rewrite S in A. destruct (A i) as [phi R]. now rewrite H in R. Qed.
End Apart.

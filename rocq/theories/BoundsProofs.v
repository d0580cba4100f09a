(** What is stored and handed out fits.  No code of /repo is modelled here. *)
From Verif Require Import Monad Api Common Msg1 Msg2 Msg3 Msg4 Exporter History Spec Facts Logic Sym Frame Quiet Pres Bounds.

Lemma zlen_blit : forall A (l d : list A), zlen (blit l d) = Z.max (zlen l) (zlen d).
Proof. intros A l d. unfold blit, zlen. rewrite app_length, skipn_length. lia. Qed.

Section Context.
Context {E : env}.
Hypothesis Hs : 1 <= cf_max_suites.
Hypothesis Hc : 0 <= cf_max_cid.
Notation P := context_fits.
Ltac fits_done :=
  idtac; match goal with H : context_fits ?c |- context_fits _ =>
    let F1 := fresh in let F2 := fresh in let F3 := fresh in let F4 := fresh in let F5 := fresh in
    pose proof (cx_methods _ H) as F1; pose proof (cx_suites _ H) as F2; pose proof (cx_peer_suites _ H) as F3;
    pose proof (cx_cid _ H) as F4; pose proof (cx_peer_cid _ H) as F5;
    solve [constructor; first [exact F1|exact F2|exact F3|exact F4|exact F5
      |try unfold set_peer_cid; try unfold set_peer_csuites; try unfold set_peer_csuite_len; cbn [c_peer_csuites c_peer_cid cid_bstr cid_type] in *;
       try rewrite zlen_blit; first [exact F5|lia]]]
  end.
Ltac go := pr_all fits_done.

Lemma m1_compose_fits : forall nn n, pr P (message_1_compose nn n). Proof. intros. go. Qed.
Lemma m2_compose_fits : forall nn n, pr P (message_2_compose nn n). Proof. intros. go. Qed.
Lemma m3_compose_fits : forall nn n, pr P (message_3_compose nn n). Proof. intros. go. Qed.
Lemma m4_compose_fits : forall nn n, pr P (message_4_compose nn n). Proof. intros. go. Qed.
Lemma m2_process_fits : forall nn n, pr P (message_2_process nn n). Proof. intros. go. Qed.
Lemma m3_process_fits : forall nn n, pr P (message_3_process nn n). Proof. intros. go. Qed.
Lemma m4_process_fits : forall nn n, pr P (message_4_process nn n). Proof. intros. go. Qed.
Lemma export_fits : forall nn l n, pr P (export_prk_exporter nn l n). Proof. intros. go. Qed.
Lemma update_fits : forall nn e, pr P (export_key_update nn e). Proof. intros. go. Qed.
Lemma oscore_fits : forall nn a b c d, pr P (export_oscore_session nn a b c d). Proof. intros. go. Qed.
(** Message 1: a single suite is stored behind the ones already there. *)
Definition at_len (n : Z) (c : ctx) : Prop := context_fits c /\ c_peer_csuite_len c = n.
Lemma single_fits : forall n v B (k : unit -> M B), n < cf_max_suites -> (forall u, pr P (k u)) ->
  forall w, at_len n (w_ctx w) ->
  sat Any (bind (modify (fun c => set_peer_csuite_len 1 (set_peer_csuites
                    (take (c_peer_csuite_len c) (c_peer_csuites c ++ zeros (c_peer_csuite_len c)) ++ [v]) c))) k) w
    (fun _ w' => P (w_ctx w')).
Proof.
  intros n v B k Hn Hk w [F L]. apply sat_bind, sat_modify, Hk. cbn [w_ctx].
  constructor; [exact (cx_methods _ F)|exact (cx_suites _ F)| |exact (cx_cid _ F)|exact (cx_peer_cid _ F)].
  change (zlen (take (c_peer_csuite_len (w_ctx w)) (c_peer_csuites (w_ctx w) ++ zeros (c_peer_csuite_len (w_ctx w))) ++ [v])
          <= cf_max_suites).
  rewrite L. unfold zlen, take. rewrite app_length, firstn_length. cbn [length].
  destruct (Z.leb_spec 0 n); [lia|]. replace (Z.to_nat n) with 0%nat by lia. cbn [Nat.min]. lia.
Qed.
Lemma rd_ptr_bind : forall n p B (k : bytes -> M B),
  (forall b, zlen b <= Z.max 0 n -> pr P (k b)) -> pr P (bind (rd_ptr n p) k).
Proof.
  intros n p B k H w F. apply sat_bind. unfold rd_ptr. destruct (n <=? 0).
  - apply sat_ret, H; [unfold zlen; cbn [length]; lia|exact F].
  - destruct p; [|now apply sat_fault]. apply sat_bind, sy_check. intros _. apply sat_ret, H; [|exact F].
    unfold zlen, take. rewrite firstn_length. lia.
Qed.
Ltac go1 := repeat first [ apply rd_ptr_bind; intros ? ?
  | match goal with |- context [if cf_max_cid + 1 <? ?n then _ else _] => destruct (Z.ltb_spec (cf_max_cid + 1) n) end
  | pr_step fits_done | progress pr_open ].
Lemma at_idx : forall n i c, at_len n c -> at_len n (set_csuite_idx i c).
Proof. intros n i c [F L]. split; [fits_done|exact L]. Qed.
Lemma at_method : forall n i c, at_len n c -> at_len n (set_chosen_method i c).
Proof. intros n i c [F L]. split; [fits_done|exact L]. Qed.
Lemma at_enter : forall m r c, context_fits c -> forall w (Q : unit -> world -> Prop), w_ctx w = c ->
  (forall w', at_len (c_peer_csuite_len c) (w_ctx w') -> Q tt w') -> sat Any (enter m r) w Q.
Proof.
  intros m r c F w Q <- H. unfold enter. apply sat_modify, H. split; [cbn [w_ctx]; fits_done|reflexivity].
Qed.
Lemma at_modify : forall n f w (Q : unit -> world -> Prop), at_len n (w_ctx w) -> (forall c, at_len n c -> at_len n (f c)) ->
  (forall w', at_len n (w_ctx w') -> Q tt w') -> sat Any (modify f) w Q.
Proof. intros n f w Q F H K. apply sat_modify, K. cbn [w_ctx]. now apply H. Qed.
Lemma m1_process_fits : forall nn m, pr P (message_1_process nn m).
Proof.
  intros nn m w F. unfold message_1_process.
  destruct (negb nn || (zlen m =? 0)); [now apply sat_ret|]. apply sat_bind, sat_getc.
  destruct (negb (in_state SM_START TH_INVALID PRK_INVALID (w_ctx w))); [now apply sat_ret|].
  apply sat_bind. eapply at_enter; [exact F|reflexivity|]. intros w1 F1.
  destruct (dec_message_1 cf_canon m) as [[dok d] rest]. cbv zeta.
  destruct (negb dok && _); [apply sat_ret, F1|]. destruct (c_csuite_len (w_ctx w) =? 0); [apply sat_ret, F1|].
  apply sat_bind. eapply at_modify; [exact F1|intros; now apply at_idx|]. clear w1 F1. intros w2 F2.
  apply sat_bind, sy_get_suite. intros _.
  destruct (negb (existsb _ _)); [apply sat_ret, F2|].
  apply sat_bind. eapply at_modify; [exact F2|intros; now apply at_method|]. clear F2. intros w3 F3.
  apply sat_bind.
  eapply sat_conseq with (P := fun (_ : Z) w' => P (w_ctx w')).
  - destruct (m1_su_choice d =? 1).
    + apply sat_bind, sy_check. intro G. apply Z.ltb_lt in G.
      eapply single_fits; [exact G|intro; go|exact F3].
    + match goal with |- sat _ ?x _ _ => assert (X : pr P x) by go end. apply X, F3.
  - intros r w4 F4. match goal with |- sat _ ?x _ _ => assert (X : pr P x) by go1 end. apply X, F4.
Qed.
Lemma cfg_fits : forall f, (forall c, P c -> P (snd (f c))) -> pr P (cfg f).
Proof.
  intros f H. unfold cfg. apply getc_pr. intros c F. specialize (H c F). destruct (f c) as [r c']. cbn [snd] in H.
  apply bind_pr; [apply modify_pr; intros; exact H|intros; apply ret_pr].
Qed.
Lemma init_fits : P ctx0 /\ P (set_is_init true ctx0).
Proof. split; constructor; unfold METHOD_MAX, zlen; cbn; intros; lia. Qed.
Lemma api_fits : forall a, pr P (do_api a).
Proof.
  destruct init_fits as [I0 I1].
  destruct a; unfold do_api, msg_out, no_out; try (apply cfg_fits; intros c F).
  all: try (apply bind_pr; [first [apply m1_compose_fits|apply m2_compose_fits|apply m3_compose_fits|apply m4_compose_fits
    |apply m1_process_fits|apply m2_process_fits|apply m3_process_fits|apply m4_process_fits|apply export_fits|apply update_fits|apply oscore_fits]
    |intro; go]).
  - unfold context_init. repeat match goal with |- context [if ?b then _ else _] => destruct b end; cbn [snd]; auto.
  - unfold context_deinit. repeat match goal with |- context [if ?b then _ else _] => destruct b end; cbn [snd]; auto.
  - unfold set_methods_call. destruct m as [l|]; [|exact F]. destruct ((zlen l =? 0) || (METHOD_MAX <? zlen l)) eqn:G; [exact F|].
    apply orb_false_iff in G. destruct G as [_ G]. apply Z.ltb_ge in G.
    repeat match goal with |- context [if ?b then _ else _] => destruct b end; cbn [snd]; try exact F.
    all: constructor; [|exact (cx_suites _ F)|exact (cx_peer_suites _ F)|exact (cx_cid _ F)|exact (cx_peer_cid _ F)].
    all: pose proof (cx_methods _ F) as B; unfold set_methods, set_method_len; cbn [c_methods]; rewrite ?zlen_blit; lia.
  - unfold set_cipher_suites_call. destruct s as [l|]; [|exact F]. destruct (zlen l =? 0); [exact F|].
    destruct (negb (c_is_init c)); [exact F|]. destruct (cf_max_suites <? zlen l) eqn:G; [exact F|]. apply Z.ltb_ge in G. cbn [snd].
    constructor; [exact (cx_methods _ F)| |exact (cx_peer_suites _ F)|exact (cx_cid _ F)|exact (cx_peer_cid _ F)].
    pose proof (cx_suites _ F) as B. unfold set_csuites, set_csuite_len. cbn [c_csuites]. rewrite zlen_blit. lia.
  - unfold set_connection_id_call. destruct i as [i|]; [|exact F]. destruct (negb (c_is_init c)); [exact F|].
    destruct (cid_type i =? CID_INT) eqn:T.
    + destruct ((cid_int i <? -24) || (23 <? cid_int i)); [exact F|]. cbn [snd].
      constructor; [exact (cx_methods _ F)|exact (cx_suites _ F)|exact (cx_peer_suites _ F)| |exact (cx_peer_cid _ F)].
      unfold set_cid. cbn [c_cid]. apply Z.eqb_eq in T. rewrite T. discriminate.
    + destruct (cid_type i =? CID_BSTR); [|exact F]. destruct (zlen (cid_bstr i) =? 0); [exact F|].
      destruct (cf_max_cid <? zlen (cid_bstr i)) eqn:G; [exact F|]. apply Z.ltb_ge in G. cbn [snd].
      constructor; [exact (cx_methods _ F)|exact (cx_suites _ F)|exact (cx_peer_suites _ F)| |exact (cx_peer_cid _ F)].
      intros _. exact G.
  - unfold set_user_context_call. destruct u as [u|]; [|exact F]. destruct (negb (c_is_init c)); cbn [snd]; [exact F|fits_done].
  - unfold bind_ead_call. destruct e as [e|]; [|exact F].
    repeat match goal with |- context [if ?b then _ else _] => destruct b end; cbn [snd]; try exact F. fits_done.
  - unfold bind_keys_call. destruct k as [e|]; [|exact F].
    repeat match goal with |- context [if ?b then _ else _] => destruct b end; cbn [snd]; try exact F. fits_done.
  - unfold bind_crypto_call. destruct k as [e|]; [|exact F].
    repeat match goal with |- context [if ?b then _ else _] => destruct b end; cbn [snd]; try exact F. fits_done.
  - unfold bind_credentials_call. destruct k as [e|]; [|exact F].
    repeat match goal with |- context [if ?b then _ else _] => destruct b end; cbn [snd]; try exact F. fits_done.
  - apply getc_pr. intros c F. destruct (error_get_code nn c). apply ret_pr.
  - apply getc_pr. intros c F. destruct (error_get_cipher_suites nn size peer_size c) as [[? ?] ?]. apply ret_pr.
Qed.
Lemma runs_fits : forall l, pr P (runs l).
Proof.
  induction l; cbn [runs]; [apply ret_pr|]. apply bind_pr; [apply api_fits|intro]. apply bind_pr; [exact IHl|intro; apply ret_pr].
Qed.
Lemma history_fits : forall l w rs w', runs (AInit :: l) w = Ret rs w' -> P (w_ctx w').
Proof.
  intros l w rs w' R. cbn [runs] in R. apply bind_inv in R. destruct R as (r & w1 & R1 & R2).
  apply bind_inv in R2. destruct R2 as (rs' & w2 & R2 & R3). injection R3 as <- <-.
  assert (F : P (w_ctx w1)).
  { unfold do_api, cfg in R1. apply bind_inv in R1. destruct R1 as (c & w3 & G & R1). injection G as <- <-.
    destruct (context_init (w_ctx w)) as [z c'] eqn:I. apply bind_inv in R1. destruct R1 as ([] & w3 & R1 & R3).
    injection R1 as <-. injection R3 as <- <-. cbn [w_ctx].
    unfold context_init in I. injection I as <- <-. apply init_fits. }
  exact (sat_run _ _ _ _ _ _ _ (runs_fits l w1 F) R2).
Qed.
End Context.

(** ** What the application is asked to verify *)
Section Asked.
Context {E : env}.
Hypothesis Hx : 1 <= cf_max_certs.
Definition aw {A} (Q : A -> Prop) (m : M A) : Prop :=
  forall w, match m w with
            | Ret a w' => Q a /\ exists e, w_tr w' = e ++ w_tr w /\ Forall asked_within e
            | Ub _ => True end.
Definition anyv {A} (_ : A) : Prop := True.
Lemma bind_aw : forall A B (R : A -> Prop) Q (m : M A) (k : A -> M B),
  aw R m -> (forall a, R a -> aw Q (k a)) -> aw Q (bind m k).
Proof.
  intros A B R Q m k H1 H2 w. specialize (H1 w). unfold bind. destruct (m w) as [a w1|]; [|exact I].
  destruct H1 as (Ra & e1 & T1 & F1). specialize (H2 a Ra w1). destruct (k a w1) as [b w2|]; [|exact I].
  destruct H2 as (Qb & e2 & T2 & F2). split; [exact Qb|]. exists (e2 ++ e1). rewrite T2, T1.
  split; [apply app_assoc|]. apply Forall_app. now split.
Qed.
Lemma quiet_aw : forall A (m : M A), quiet m -> aw anyv m.
Proof.
  intros A m H w. specialize (H w). destruct (m w) as [a w'|]; [|exact I]. split; [exact I|].
  destruct H as (e & T & F). exists e. split; [exact T|]. clear - F. induction e as [|x e IH]; constructor.
  - cbn [filter] in F. destruct x; try exact I. discriminate F.
  - apply IH. cbn [filter] in F. destruct (asking x); [discriminate F|exact F].
Qed.
Lemma emit_aw : forall e, asked_within e -> aw anyv (emit e).
Proof. intros e H w. cbn. split; [exact I|]. exists [e]. split; [reflexivity|]. constructor; [exact H|constructor]. Qed.
Ltac aw_step :=
  lazymatch goal with
  | |- aw anyv (bind _ _) => apply (bind_aw _ _ anyv); [|intros ? _]
  | |- aw anyv (if ?b then _ else _) => split_bool b
  | |- aw anyv (match ?x with _ => _ end) => destruct x
  | |- aw anyv (let _ := _ in _) => cbv zeta
  | |- aw anyv ((fun _ => _) _) => cbv beta
  | |- aw anyv (emit _) => apply emit_aw; first [exact I|assumption]
  | |- aw anyv _ => apply quiet_aw; solve [auto 2 with qu nocore]
  end.
Ltac aw_auto := repeat aw_step.
Lemma ead_compose_aw : aw anyv ead_compose. Proof. unfold ead_compose, call_compose. aw_auto. Qed.
Lemma ead_process_aw : aw anyv ead_process. Proof. unfold ead_process, call_process. aw_auto. Qed.
Lemma fetch_aw : aw anyv call_fetch. Proof. unfold call_fetch. aw_auto. Qed.
Lemma cverify_aw : forall cr, names_within cr -> aw anyv (call_cverify cr).
Proof. intros cr H. unfold call_cverify. aw_auto. Qed.
Lemma chain_within : forall c, names_within (snd (creds_of_chain c)).
Proof.
  intros [b|l]; unfold creds_of_chain; [cbn; unfold zlen; cbn; lia|].
  destruct (Z.ltb_spec cf_max_certs (zlen l)); cbn; [exact I|assumption].
Qed.
Lemma x5t_within : 0 <= cf_max_alg + 1 -> forall c, names_within (snd (creds_of_x5t c)).
Proof.
  intros Ha [[z|b] fp]; unfold creds_of_x5t; [cbn; exact Ha|].
  destruct (Z.ltb_spec (cf_max_alg + 1) (zlen b)); cbn; [exact I|assumption].
Qed.
Lemma parse_id_cred_aw : 0 <= cf_max_alg + 1 -> 0 <= cf_max_kid + 1 -> forall b i,
  aw (fun x => names_within (snd x)) (parse_id_cred b i).
Proof.
  intros Ha Hk b i w. unfold parse_id_cred.
  assert (N : w_tr w = [] ++ w_tr w /\ Forall asked_within []) by (split; [reflexivity|constructor]).
  destruct i as [v|v|[cc ch h]].
  - cbn. split; [exact Hk|now exists []].
  - cbn. destruct (Z.leb_spec (zlen v) (cf_max_kid + 1)); cbn; [|exact I]. split; [assumption|now exists []].
  - pose proof chain_within as C. pose proof (x5t_within Ha) as X.
    destruct ch as [c|], h as [x|]; cbn.
    + specialize (C c). specialize (X x). destruct (creds_of_chain c) as [r cr]. cbn in C.
      destruct (negb (r =? OK)); [split; [exact C|now exists []]|].
      destruct b; [split; [exact C|now exists []]|split; [exact X|now exists []]].
    + split; [apply C|now exists []].
    + split; [apply X|now exists []].
    + split; [exact I|now exists []].
Qed.
Hypothesis Ha : 0 <= cf_max_alg.
Hypothesis Hk : 0 <= cf_max_kid.
Lemma ret_aw : forall A (Q : A -> Prop) a, Q a -> aw Q (ret a).
Proof. intros A Q a H w. split; [exact H|]. exists []. split; [reflexivity|constructor]. Qed.
Lemma plaintext_2_aw : forall p, aw (fun x => names_within (fst (snd x))) (parse_plaintext_2 p).
Proof.
  intros p. unfold parse_plaintext_2. destruct (zlen p =? 0); [now apply ret_aw|].
  destruct (dec_plaintext_2 _ _) as [d|]; [|now apply ret_aw].
  apply (bind_aw _ _ anyv); [aw_auto|]. intros r _. destruct (negb _); [now apply ret_aw|].
  eapply bind_aw; [apply parse_id_cred_aw; lia|]. intros [r' cr] N. destruct (negb _); [now apply ret_aw|].
  apply (bind_aw _ _ anyv); [aw_auto|]. intros _ _. now apply ret_aw.
Qed.
Lemma plaintext_3_aw : forall p, aw (fun x => names_within (fst (snd x))) (parse_plaintext_3 p).
Proof.
  intros p. unfold parse_plaintext_3. destruct (zlen p =? 0); [now apply ret_aw|].
  destruct (dec_plaintext_3 _ _) as [d|]; [|now apply ret_aw].
  eapply bind_aw; [apply parse_id_cred_aw; lia|]. intros [r' cr] N. destruct (negb _); [now apply ret_aw|].
  apply (bind_aw _ _ anyv); [aw_auto|]. intros _ _. now apply ret_aw.
Qed.
Ltac awp_step :=
  lazymatch goal with
  | |- aw anyv (bind (parse_plaintext_2 _) _) => eapply bind_aw; [apply plaintext_2_aw|intros [? [? ?]] ?]
  | |- aw anyv (bind (parse_plaintext_3 _) _) => eapply bind_aw; [apply plaintext_3_aw|intros [? [? ?]] ?]
  | |- aw anyv (call_cverify _) => apply cverify_aw; assumption
  | |- aw anyv (call_process _ _ _) => unfold call_process
  | |- aw anyv ead_compose => apply ead_compose_aw
  | |- aw anyv ead_process => apply ead_process_aw
  | |- aw anyv call_fetch => apply fetch_aw
  | |- aw anyv (fail _ _) => unfold fail
  | |- aw anyv (failp _ _) => unfold failp
  | |- aw anyv (enter _ _) => unfold enter
  | |- aw anyv (cfg _) => unfold cfg
  | |- aw anyv (msg_out _) => unfold msg_out
  | |- aw anyv (no_out _) => unfold no_out
  | |- _ => aw_step
  end.
Lemma api_aw : forall a, aw anyv (do_api a).
Proof.
  destruct a; cbn [do_api];
    unfold message_1_compose, message_2_compose, message_3_compose, message_4_compose, message_1_process, message_2_process,
      message_3_process, message_4_process, export_key_update, export_oscore_session; repeat awp_step.
Qed.
Lemma runs_aw : forall l, aw anyv (runs l).
Proof.
  induction l; cbn [runs]; [now apply ret_aw|]. apply (bind_aw _ _ anyv); [apply api_aw|intros ? _].
  apply (bind_aw _ _ anyv); [exact IHl|intros ? _]. now apply ret_aw.
Qed.
End Asked.

(** ** What is handed back *)
Section Handed.
Context {E : env}.
Definition vl {A} (Q : A -> Prop) (m : M A) : Prop := forall w, match m w with Ret a _ => Q a | Ub _ => True end.
Lemma bind_vl : forall A B (R : A -> Prop) Q (m : M A) (k : A -> M B), vl R m -> (forall a, R a -> vl Q (k a)) -> vl Q (bind m k).
Proof.
  intros A B R Q m k H1 H2 w. specialize (H1 w). unfold bind. destruct (m w) as [a w1|]; [|exact I]. apply (H2 a H1).
Qed.
Lemma bind_any : forall A B Q (m : M A) (k : A -> M B), (forall a, vl Q (k a)) -> vl Q (bind m k).
Proof. intros A B Q m k H. apply (bind_vl _ _ anyv); [|auto]. intro w. now destruct (m w). Qed.
Lemma ret_vl : forall A (Q : A -> Prop) a, Q a -> vl Q (ret a). Proof. intros A Q a H w. exact H. Qed.
Lemma expand_vl : forall k i n, vl (fun x => zlen (snd x) <= n) (call_expand k i n).
Proof.
  intros k i n. unfold call_expand. repeat (apply bind_any; intro). destruct (o_expand _ _ _ _ _) as [r out].
  apply bind_any. intros _. unfold out_ok, check. intro w. cbn. destruct (Z.leb_spec (zlen out) n); cbn; auto.
Qed.
Lemma export_vl : forall nn l n, 0 <= n -> vl (fun x => zlen (snd x) <= n) (export_prk_exporter nn l n).
Proof.
  intros nn l n Hn. unfold export_prk_exporter.
  assert (Z0 : zlen (@nil Z) <= n) by (cbn; lia).
  repeat lazymatch goal with
  | |- vl _ (bind (call_expand _ _ _) _) => eapply bind_vl; [apply expand_vl|intros [? ?] ?]
  | |- vl _ (bind _ _) => apply bind_any; intro
  | |- vl _ (ret _) => apply ret_vl; cbn [snd] in *; assumption
  | |- vl _ (let _ := _ in _) => cbv zeta
  | |- vl _ (if ?b then _ else _) => destruct b
  | |- vl _ (match ?x with _ => _ end) => destruct x
  end.
Qed.
Lemma oscore_id_le : forall i n, 0 <= n -> zlen (snd (oscore_id i n)) <= n.
Proof.
  intros i n Hn. unfold oscore_id, fits. assert (Z0 : zlen (@nil Z) <= n) by (cbn; lia).
  destruct (cid_type i =? CID_INT).
  - destruct (Z.leb_spec (zlen (enc_int (cid_int i))) n); assumption.
  - destruct (cid_type i =? CID_BSTR); [|exact Z0]. destruct (Z.ltb_spec n (zlen (cid_bstr i))); assumption.
Qed.
Lemma api_handed : forall a, sizes_ok a -> vl (fun x => fits_caller a (snd x)) (do_api a).
Proof.
  intros a S. destruct a; cbn [sizes_ok do_api] in *;
    try solve [intro w; match goal with |- match ?x with _ => _ end => destruct x as [[? []] ?|]; exact I end].
  - unfold msg_out. eapply bind_vl; [apply export_vl, S|]. intros [r b] H. apply ret_vl. exact H.
  - destruct S as (S1 & S2 & S3 & S4). apply (bind_vl _ _ (fun x => fits_caller (AOscore nn n_sec n_salt n_sid n_rid) (OOscore (snd x)))).
    2: { intros [r o] H. apply ret_vl. exact H. }
    unfold export_oscore_session.
    assert (Z0 : forall n, 0 <= n -> zlen (@nil Z) <= n) by (intros; cbn; lia).
    repeat lazymatch goal with
    | |- vl _ (bind (export_prk_exporter _ _ _) _) => eapply bind_vl; [apply export_vl; assumption|intros [? ?] ?]
    | |- vl _ (bind _ _) => apply bind_any; intro
    | |- vl _ (ret _) => apply ret_vl; cbn [snd fits_caller os_secret os_salt os_sid os_rid osc0] in *; auto
    | |- vl _ (let '(_, _) := oscore_id ?i ?n in _) => let H := fresh in
        assert (H : zlen (snd (oscore_id i n)) <= n) by (apply oscore_id_le; assumption); destruct (oscore_id i n) as [? ?]
    | |- vl _ (if ?b then _ else _) => destruct b
    | |- vl _ (match ?x with _ => _ end) => destruct x
    end.
  - destruct S as (S1 & S2). apply bind_any. intro c. unfold error_get_cipher_suites.
    assert (L : forall A (f : nat -> A) k n, 0 <= n -> k <= n -> zlen (map f (seq 0 (Z.to_nat k))) <= n).
    { intros A f k n G1 G2. unfold zlen. rewrite map_length, seq_length. lia. }
    repeat match goal with
    | |- context [if ?n <? ?k then _ else _] => destruct (Z.ltb_spec n k)
    | |- context [if ?b then _ else _] => destruct b
    end; apply ret_vl; cbn [snd fits_caller]; split; intros l Hl; try discriminate Hl; injection Hl as <-; auto.
Qed.
Lemma runs_handed : forall l, Forall sizes_ok l -> vl (Forall (fun x => fits_caller (fst x) (snd (snd x)))) (runs l).
Proof.
  induction 1; cbn [runs]; [apply ret_vl; constructor|]. eapply bind_vl; [apply api_handed; assumption|]. intros r Hr.
  eapply bind_vl; [exact IHForall|]. intros rs Hrs. apply ret_vl. now constructor.
Qed.
End Handed.
Lemma history_asked : forall (E : env), 1 <= cf_max_certs -> 0 <= cf_max_alg -> 0 <= cf_max_kid -> forall l w rs w',
  runs l w = Ret rs w' -> exists e, w_tr w' = e ++ w_tr w /\ Forall asked_within e.
Proof.
  intros E H1 H2 H3 l w rs w' H. pose proof (runs_aw H1 H2 H3 l w) as A. rewrite H in A. apply A.
Qed.
Lemma history_handed : forall (E : env) l w rs w', Forall sizes_ok l -> runs l w = Ret rs w' ->
  Forall (fun x => fits_caller (fst x) (snd (snd x))) rs.
Proof. intros E l w rs w' S H. pose proof (runs_handed l S w) as A. rewrite H in A. exact A. Qed.

(** What a call asks of the key and crypto callbacks: which handles, which sizes, in which order.
    No code of /repo is modelled here. *)
From Verif Require Import Monad Api Common Msg1 Msg2 Msg3 Msg4 Exporter History Logic Frame.

(** A handle imported, or named by fetched credentials, in [e]. *)
Definition hand (kid : bytes) (e : list event) : Prop := exists kt key, In (EvImport kt key OK kid) e.
Definition lent (kid : bytes) (e : list event) : Prop := exists cr, In (EvFetch OK cr) e /\ cr_priv cr = kid.

Section Ask.
Context {E : env} (t0 : list event) (s : csuite) (ro : Z).

(** [ev] is an answer of the callbacks after the events [e] of this call. *)
Definition asked (ev : event) (e : list event) : Prop :=
  let t := e ++ t0 in
  match ev with
  | EvImport kt key r kid => exists f, o_import f t kt key = (r, kid)
  | EvDestroy kid r => hand kid e /\ exists f, o_destroy f t kid = r
  | EvMkPair kid r a b => hand kid e /\ exists f n, o_mkpair f t kid n (cs_ecc s) = (r, a, b)
  | EvAgree kid p r out => (hand kid e \/ lent kid e) /\ exists f, o_agree f t kid p (cs_ecc s) = (r, out)
  | EvSign kid i r out => lent kid e /\ exists f n, o_sign f t kid i n = (r, out)
  | EvVerify kid i sg r => hand kid e /\ exists f, o_verify f t kid i sg = r
  | EvExtract kid sa r out => hand kid e /\ exists f, o_extract f t kid sa (cs_hash s) = (r, out)
  | EvExpand kid i n r out => hand kid e /\ 0 <= n /\ exists f, o_expand f t kid i n = (r, out)
  | EvEncrypt kid iv ad p r out => hand kid e /\ exists f n, o_encrypt f t kid iv ad p n = (r, out)
  | EvDecrypt kid iv ad c r out => hand kid e /\ exists f n, o_decrypt f t kid iv ad c n = (r, out)
  | EvHash x n r y => n = cs_hash s /\ exists f, o_hash f t x n = (r, y)
  | EvFetch r cr => exists f, o_fetch f t = (r, cr)
  | _ => True
  end.
Fixpoint asks (e : list event) : Prop := match e with [] => True | ev :: e' => asked ev e' /\ asks e' end.

(** [on e w]: the call has made the events [e] so far. *)
Definition on (e : list event) (w : world) : Prop :=
  w_tr w = e ++ t0 /\ asks e /\ the_suite (w_ctx w) = s /\ c_role (w_ctx w) = ro.
Definition knows (hs ls : list bytes) (e : list event) : Prop :=
  (forall k, In k hs -> hand k e) /\ (forall k, In k ls -> lent k e).
(** [m] asks properly when it may use the handles [hs] and [ls]. *)
Definition ak (hs ls : list bytes) {A} (m : M A) : Prop :=
  forall e w a w', on e w -> knows hs ls e -> m w = Ret a w' -> exists e', on (e' ++ e) w'.

Lemma hand_app : forall k e e', hand k e -> hand k (e' ++ e).
Proof. intros k e e' (a & b & H). exists a, b. apply in_or_app. now right. Qed.
Lemma lent_app : forall k e e', lent k e -> lent k (e' ++ e).
Proof. intros k e e' (a & H & b). exists a. split; [apply in_or_app; now right|exact b]. Qed.
Lemma knows_app : forall hs ls e e', knows hs ls e -> knows hs ls (e' ++ e).
Proof. intros hs ls e e' [H1 H2]. split; intros; [apply hand_app|apply lent_app]; auto. Qed.

Lemma ak_bind : forall hs ls A B (m : M A) (k : A -> M B),
  ak hs ls m -> (forall a, ak hs ls (k a)) -> ak hs ls (bind m k).
Proof.
  intros hs ls A B m k H1 H2 e w b w' O K R. apply bind_inv in R. destruct R as (a & w1 & R1 & R2).
  destruct (H1 _ _ _ _ O K R1) as [e1 O1]. destruct (H2 a _ _ _ _ O1 (knows_app _ _ _ _ K) R2) as [e2 O2].
  exists (e2 ++ e1). now rewrite <- app_assoc.
Qed.
Lemma ak_same : forall hs ls A (m : M A), (forall w a w', m w = Ret a w' -> w' = w) -> ak hs ls m.
Proof. intros hs ls A m H e w a w' O K R. exists []. now rewrite (H _ _ _ R). Qed.
Lemma ret_k : forall hs ls A (a : A), ak hs ls (ret a). Proof. intros. apply ak_same. intros ? ? ? R. now inversion R. Qed.
Lemma fault_k : forall hs ls A u, ak hs ls (@fault A u). Proof. intros. apply ak_same. intros ? ? ? R. discriminate. Qed.
Lemma trace_k : forall hs ls, ak hs ls trace. Proof. intros. apply ak_same. intros ? ? ? R. now inversion R. Qed.
Lemma check_k : forall hs ls b u, ak hs ls (check b u).
Proof. intros. apply ak_same. intros ? ? ? R. now apply check_inv in R. Qed.
Lemma need_k : forall hs ls A (o : option A) u, ak hs ls (need o u).
Proof. intros. apply ak_same. intros ? ? ? R. now apply need_inv in R. Qed.
Lemma ak_getc : forall hs ls B (k : ctx -> M B),
  (forall c, the_suite c = s -> c_role c = ro -> ak hs ls (k c)) -> ak hs ls (bind getc k).
Proof. intros hs ls B k H e w b w' O K R. destruct O as (O1 & O2 & O3 & O4). apply (H (w_ctx w) O3 O4 e w b w'); auto. repeat split; auto. Qed.
Lemma ak_suite : forall hs ls B (k : csuite -> M B), ak hs ls (k s) -> ak hs ls (bind get_suite k).
Proof.
  intros hs ls B k H e w b w' O K R. apply bind_inv in R. destruct R as (x & w1 & R1 & R2).
  unfold get_suite in R1. apply bind_inv in R1. destruct R1 as (c & w2 & R3 & R4). inversion R3; subst; clear R3.
  apply bind_inv in R4. destruct R4 as ([] & w3 & R5 & R6). apply check_inv in R5. destruct R5 as [_ ->]. inversion R6; subst; clear R6.
  assert (the_suite (w_ctx w1) = s) as X by apply O. rewrite X in R2. exact (H e w1 b w' O K R2).
Qed.
Lemma modify_k : forall hs ls f, (forall c, the_suite (f c) = the_suite c /\ c_role (f c) = c_role c) -> ak hs ls (modify f).
Proof.
  intros hs ls f H e w a w' O K R. inversion R; subst. exists []. destruct O as (O1 & O2 & O3 & O4), (H (w_ctx w)) as [H1 H2].
  repeat split; cbn [w_tr w_ctx app]; congruence.
Qed.
Lemma emit_k : forall hs ls ev e w a w', on e w -> knows hs ls e -> asked ev e -> emit ev w = Ret a w' -> on (ev :: e) w'.
Proof.
  intros hs ls ev e w a w' (O1 & O2 & O3 & O4) K A R. inversion R; subst. repeat split; cbn [w_tr w_ctx]; auto. now rewrite O1.
Qed.
(** Invocations of callbacks. *)
Lemma invoke : forall hs ls A ev (m : M A), (forall e, knows hs ls e -> asked ev e) -> ak hs ls m -> ak hs ls (emit ev ;;; m).
Proof.
  intros hs ls A ev m H1 H2 e w a w' O K R. apply bind_inv in R. destruct R as ([] & w1 & R1 & R2).
  pose proof (emit_k _ _ _ _ _ _ _ O K (H1 _ K) R1) as O1.
  destruct (H2 _ _ _ _ O1 (knows_app _ _ _ [ev] K) R2) as [e2 O2]. exists (e2 ++ [ev]). now rewrite <- app_assoc.
Qed.
Lemma with_trace : forall hs ls B (k : list event -> M B),
  (forall e w b w', on e w -> knows hs ls e -> k (e ++ t0) w = Ret b w' -> exists e', on (e' ++ e) w') ->
  ak hs ls (bind trace k).
Proof.
  intros hs ls B k H e w b w' O K R. apply bind_inv in R. destruct R as (x & w1 & R1 & R2). inversion R1; subst.
  destruct O as (O1 & O2). rewrite O1 in R2. apply (H e w1 b w'); auto. now split.
Qed.
Lemma emits : forall hs ls A ev (m : M A) e w a w', on e w -> knows hs ls e -> asked ev e -> ak hs ls m ->
  (emit ev ;;; m) w = Ret a w' -> exists e', on (e' ++ e) w'.
Proof.
  intros hs ls A ev m e w a w' O K X H R. apply bind_inv in R. destruct R as ([] & w1 & R1 & R2).
  pose proof (emit_k _ _ _ _ _ _ _ O K X R1) as O1.
  destruct (H _ _ _ _ O1 (knows_app _ _ _ [ev] K) R2) as [e2 O2]. exists (e2 ++ [ev]). now rewrite <- app_assoc.
Qed.

Create HintDb ak discriminated.
#[local] Hint Constants Opaque : ak.
#[local] Hint Transparent bytes M : ak.
#[local] Hint Resolve ret_k fault_k trace_k check_k need_k : ak.

Ltac k_call :=
  intros; apply ak_getc; intros; apply ak_bind; [apply need_k|intro]; apply with_trace; intros ? ? ? ? O K R;
  repeat match type of R with context [let '(_, _) := ?x in _] => destruct x eqn:?H end;
  revert R; eapply emits; [exact O|exact K| |unfold out_ok; repeat (apply ak_bind; [apply check_k|intro]); apply ret_k].
Ltac k_ex := repeat first [exact I|split|eassumption|eexists].

Lemma call_destroy_k : forall hs ls kid, In kid hs -> ak hs ls (call_destroy kid).
Proof. unfold call_destroy. k_call. cbn [asked]. split; [now apply K|eauto]. Qed.
Lemma call_mkpair_k : forall hs ls kid n, In kid hs -> ak hs ls (call_mkpair kid n (cs_ecc s)).
Proof. unfold call_mkpair. k_call. cbn [asked]. split; [now apply K|eauto]. Qed.
Lemma call_agree_k : forall hs ls kid p, In kid hs \/ In kid ls -> ak hs ls (call_agree kid p (cs_ecc s)).
Proof. unfold call_agree. k_call. cbn [asked]. split; [destruct H; [left|right]; now apply K|eauto]. Qed.
Lemma call_sign_k : forall hs ls kid p n, In kid ls -> ak hs ls (call_sign kid p n).
Proof. unfold call_sign. k_call. cbn [asked]. split; [now apply K|eauto]. Qed.
Lemma call_verify_k : forall hs ls kid p n, In kid hs -> ak hs ls (call_verify kid p n).
Proof. unfold call_verify. k_call. cbn [asked]. split; [now apply K|eauto]. Qed.
Lemma call_extract_k : forall hs ls kid p, In kid hs -> ak hs ls (call_extract kid p (cs_hash s)).
Proof. unfold call_extract. k_call. cbn [asked]. split; [now apply K|eauto]. Qed.
Lemma call_expand_k : forall hs ls kid p n, In kid hs -> ak hs ls (call_expand kid p n).
Proof.
  unfold call_expand. intros; apply ak_getc; intros; apply ak_bind; [apply need_k|intro]; apply with_trace; intros ? ? ? ? O K R.
  destruct (o_expand _ _ kid p n) as [r out] eqn:F.
  assert (X : 0 <= n).
  { apply bind_inv in R. destruct R as (u & w1 & _ & R). apply bind_inv in R. destruct R as (v & w2 & R & _). unfold out_ok in R.
    apply check_inv in R. destruct R as [R _]. pose proof (zlen_nonneg _ out). lia. }
  revert R; eapply emits; [exact O|exact K| |unfold out_ok; repeat (apply ak_bind; [apply check_k|intro]); apply ret_k].
  cbn [asked]. split; [now apply K|split; [exact X|eauto]].
Qed.
Lemma call_encrypt_k : forall hs ls kid a b c n, In kid hs -> ak hs ls (call_encrypt kid a b c n).
Proof. unfold call_encrypt. k_call. cbn [asked]. split; [now apply K|eauto]. Qed.
Lemma call_decrypt_k : forall hs ls kid a b c n, In kid hs -> ak hs ls (call_decrypt kid a b c n).
Proof. unfold call_decrypt. k_call. cbn [asked]. split; [now apply K|eauto]. Qed.
Lemma call_hash_k : forall hs ls x, ak hs ls (call_hash x (cs_hash s)).
Proof. unfold call_hash. k_call. cbn [asked]. split; eauto. Qed.
Lemma call_cverify_k : forall hs ls x, ak hs ls (call_cverify x).
Proof. unfold call_cverify. k_call. exact I. Qed.
Lemma call_compose_k : forall hs ls f m n, ak hs ls (call_compose f m n).
Proof. intros. unfold call_compose. apply with_trace. intros e w b w' O K R. destruct (o_compose f _ m n). revert R. eapply emits; [exact O|exact K|exact I|apply ret_k]. Qed.
Lemma call_process_k : forall hs ls f m n, ak hs ls (call_process f m n).
Proof. intros. unfold call_process. apply with_trace. intros e w b w' O K R. revert R. eapply emits; [exact O|exact K|exact I|apply ret_k]. Qed.
Lemma import_run : forall kt key w a w', call_import kt key w = Ret a w' ->
  exists f, o_import f (w_tr w) kt key = a /\ w' = Wd (w_ctx w) (EvImport kt key (fst a) (snd a) :: w_tr w).
Proof.
  intros kt key w a w' R. unfold call_import in R. apply bind_inv in R. destruct R as (c & w1 & R1 & R). inversion R1; subst; clear R1.
  apply bind_inv in R. destruct R as (f & w2 & R1 & R). apply need_inv in R1. destruct R1 as [_ ->].
  apply bind_inv in R. destruct R as (t & w3 & R1 & R). inversion R1; subst; clear R1.
  exists f. destruct (o_import f (w_tr w3) kt key) eqn:?. inversion R; subst. now split.
Qed.
Lemma ak_import : forall hs ls B kt key (k : Z * bytes -> M B),
  (forall kid, ak (kid :: hs) ls (k (OK, kid))) -> (forall r kid, r <> OK -> ak hs ls (k (r, kid))) ->
  ak hs ls (bind (call_import kt key) k).
Proof.
  intros hs ls B kt key k H1 H2 e w b w' O K R. apply bind_inv in R. destruct R as ([r kid] & w1 & R1 & R2).
  apply import_run in R1. destruct R1 as (f & F & ->). cbn [fst snd] in *. destruct O as (O1 & O2 & O3 & O4).
  assert (O' : on ([EvImport kt key r kid] ++ e) (Wd (w_ctx w) (EvImport kt key r kid :: w_tr w))).
  { repeat split; cbn [w_ctx w_tr app]; auto; [now rewrite O1|]. exists f. now rewrite <- O1. }
  assert (K' : knows hs ls ([EvImport kt key r kid] ++ e)) by now apply knows_app.
  destruct (Z.eq_dec r OK) as [->|N].
  - assert (K2 : knows (kid :: hs) ls ([EvImport kt key OK kid] ++ e)).
    { destruct K' as [A1 A2]. split; [|exact A2]. intros k' [<-|I']; [exists kt, key; now left|auto]. }
    destruct (H1 kid _ _ _ _ O' K2 R2) as [e2 X].
    exists (e2 ++ [EvImport kt key OK kid]). now rewrite <- app_assoc.
  - destruct (H2 _ kid N _ _ _ _ O' K' R2) as [e2 X]. exists (e2 ++ [EvImport kt key r kid]). now rewrite <- app_assoc.
Qed.
Lemma ak_fetch : forall hs ls B (k : Z * creds -> M B),
  (forall cr, ak hs (cr_priv cr :: ls) (k (OK, cr))) -> (forall r cr, r <> OK -> ak hs ls (k (r, cr))) ->
  ak hs ls (bind call_fetch k).
Proof.
  intros hs ls B k H1 H2 e w b w' O K R. apply bind_inv in R. destruct R as ([r cr] & w1 & R1 & R2).
  unfold call_fetch in R1. apply bind_inv in R1. destruct R1 as (c & w2 & R3 & R). inversion R3; subst; clear R3.
  apply bind_inv in R. destruct R as (f & w3 & R3 & R). apply need_inv in R3. destruct R3 as [_ ->].
  apply bind_inv in R. destruct R as (t & w4 & R3 & R). inversion R3; subst; clear R3.
  destruct (o_fetch f (w_tr w4)) as [r' cr'] eqn:F. inversion R; subst; clear R. cbn [fst snd] in *. destruct O as (O1 & O2 & O3 & O4).
  assert (O' : on ([EvFetch r cr] ++ e) (Wd (w_ctx w4) (EvFetch r cr :: w_tr w4))).
  { repeat split; cbn [w_ctx w_tr app]; auto; [now rewrite O1|]. exists f. now rewrite <- O1. }
  assert (K' : knows hs ls ([EvFetch r cr] ++ e)) by now apply knows_app.
  destruct (Z.eq_dec r OK) as [->|N].
  - assert (K2 : knows hs (cr_priv cr :: ls) ([EvFetch OK cr] ++ e)).
    { destruct K' as [A1 A2]. split; [exact A1|]. intros k' [<-|I']; [exists cr; split; [now left|reflexivity]|auto]. }
    destruct (H1 cr _ _ _ _ O' K2 R2) as [e2 X].
    exists (e2 ++ [EvFetch OK cr]). now rewrite <- app_assoc.
  - destruct (H2 _ cr N _ _ _ _ O' K' R2) as [e2 X]. exists (e2 ++ [EvFetch r cr]). now rewrite <- app_assoc.
Qed.
Lemma alloc_k : forall hs ls b n, ak hs ls (alloc b n).
Proof.
  intros hs ls b n e w a w' O K R. apply alloc_inv in R. subst w'. exists [EvAlloc b n a].
  destruct O as (O1 & O2 & O3 & O4). repeat split; cbn [w_ctx w_tr app asks asked]; auto. now rewrite O1.
Qed.
Lemma free_k : forall hs ls b, ak hs ls (free b).
Proof.
  intros hs ls b e w a w' O K R. apply free_inv in R. subst w'. exists [EvFree b].
  destruct O as (O1 & O2 & O3 & O4). repeat split; cbn [w_ctx w_tr app asks asked]; auto. now rewrite O1.
Qed.
#[local] Hint Resolve alloc_k free_k call_hash_k call_cverify_k call_compose_k call_process_k : ak.

Ltac k_in := first [assumption | cbn [In]; tauto].
Ltac k_if := lazymatch goal with
  | |- ak _ _ (if negb (OK =? OK) then _ else _) => change (negb (OK =? OK)) with false; cbv iota
  | H : ?r <> OK |- ak _ _ (if negb (?r =? OK) then _ else _) => rewrite (proj2 (Z.eqb_neq _ _) H); cbn [negb]; cbv iota
  | |- ak _ _ (if ?b then _ else _) => split_bool b
  end.
Ltac k_step :=
  cbn [fst snd] in *;
  lazymatch goal with
  | |- ak _ _ (bind getc _) => apply ak_getc; intros
  | |- ak _ _ (bind get_suite _) => apply ak_suite
  | |- ak _ _ (bind (call_import _ _) _) => apply ak_import; intros
  | |- ak _ _ (bind call_fetch _) => apply ak_fetch; intros
  | |- ak _ _ (bind _ _) => apply ak_bind; [|intro]
  | |- ak _ _ (call_destroy _) => apply call_destroy_k; k_in
  | |- ak _ _ (call_mkpair _ _ _) => apply call_mkpair_k; k_in
  | |- ak _ _ (call_agree _ _ _) => apply call_agree_k; k_in
  | |- ak _ _ (call_sign _ _ _) => apply call_sign_k; k_in
  | |- ak _ _ (call_verify _ _ _) => apply call_verify_k; k_in
  | |- ak _ _ (call_extract _ _ _) => apply call_extract_k; k_in
  | |- ak _ _ (call_expand _ _ _) => apply call_expand_k; k_in
  | |- ak _ _ (call_encrypt _ _ _ _ _) => apply call_encrypt_k; k_in
  | |- ak _ _ (call_decrypt _ _ _ _ _) => apply call_decrypt_k; k_in
  | |- ak _ _ (modify _) => apply modify_k; intros; split; reflexivity
  | |- ak _ _ (fail _ _) => unfold fail
  | |- ak _ _ (failp _ _) => unfold failp
  | |- ak _ _ (if _ then _ else _) => k_if
  | |- ak _ _ (match ?x with _ => _ end) => destruct x
  | |- ak _ _ (let _ := _ in _) => cbv zeta
  | |- ak _ _ ((fun _ => _) _) => cbv beta
  | |- ak _ _ _ => solve [eauto 4 with ak nocore]
  end.
Ltac k_auto := repeat k_step.
Lemma rd_k : forall hs ls a b c, ak hs ls (rd a b c).
Proof. intros. unfold rd. k_auto. Qed.
#[local] Hint Resolve rd_k : ak.
Lemma rd_ptr_k : forall hs ls a b, ak hs ls (rd_ptr a b).
Proof. intros. unfold rd_ptr. k_auto. Qed.
#[local] Hint Resolve rd_ptr_k : ak.
Lemma rd_tok_k : forall hs ls a b, ak hs ls (rd_tok a b).
Proof. intros. unfold rd_tok. k_auto. Qed.
#[local] Hint Resolve rd_tok_k : ak.
Lemma get_th_k : forall hs ls, ak hs ls (get_th).
Proof. intros. unfold get_th. k_auto. Qed.
#[local] Hint Resolve get_th_k : ak.
Lemma get_prk_k : forall hs ls, ak hs ls (get_prk).
Proof. intros. unfold get_prk. k_auto. Qed.
#[local] Hint Resolve get_prk_k : ak.
Lemma get_dh_pub_k : forall hs ls, ak hs ls (get_dh_pub).
Proof. intros. unfold get_dh_pub. k_auto. Qed.
#[local] Hint Resolve get_dh_pub_k : ak.
Lemma get_dh_priv_k : forall hs ls, ak hs ls (get_dh_priv).
Proof. intros. unfold get_dh_priv. k_auto. Qed.
#[local] Hint Resolve get_dh_priv_k : ak.
Lemma get_dh_peer_k : forall hs ls, ak hs ls (get_dh_peer).
Proof. intros. unfold get_dh_peer. k_auto. Qed.
#[local] Hint Resolve get_dh_peer_k : ak.
Lemma get_dh_secret_k : forall hs ls, ak hs ls (get_dh_secret).
Proof. intros. unfold get_dh_secret. k_auto. Qed.
#[local] Hint Resolve get_dh_secret_k : ak.
Lemma put_th_k : forall hs ls a, ak hs ls (put_th a).
Proof. intros. unfold put_th, wr. k_auto. Qed.
#[local] Hint Resolve put_th_k : ak.
Lemma put_prk_k : forall hs ls a, ak hs ls (put_prk a).
Proof. intros. unfold put_prk, wr. k_auto. Qed.
#[local] Hint Resolve put_prk_k : ak.
Lemma put_dh_pub_k : forall hs ls a, ak hs ls (put_dh_pub a).
Proof. intros. unfold put_dh_pub, wr. k_auto. Qed.
#[local] Hint Resolve put_dh_pub_k : ak.
Lemma put_dh_priv_k : forall hs ls a, ak hs ls (put_dh_priv a).
Proof. intros. unfold put_dh_priv, wr. k_auto. Qed.
#[local] Hint Resolve put_dh_priv_k : ak.
Lemma put_dh_peer_k : forall hs ls a, ak hs ls (put_dh_peer a).
Proof. intros. unfold put_dh_peer, wr. k_auto. Qed.
#[local] Hint Resolve put_dh_peer_k : ak.
Lemma put_dh_secret_k : forall hs ls a, ak hs ls (put_dh_secret a).
Proof. intros. unfold put_dh_secret, wr. k_auto. Qed.
#[local] Hint Resolve put_dh_secret_k : ak.
Lemma frees_k : forall hs ls l, ak hs ls (frees l).
Proof. induction l; cbn [frees]; k_auto. Qed.
#[local] Hint Resolve frees_k : ak.
Lemma comp_id_cred_len_k : forall hs ls a, ak hs ls (comp_id_cred_len a).
Proof. intros. unfold comp_id_cred_len. k_auto. Qed.
#[local] Hint Resolve comp_id_cred_len_k : ak.
Lemma comp_cred_len_k : forall hs ls a, ak hs ls (comp_cred_len a).
Proof. intros. unfold comp_cred_len. k_auto. Qed.
#[local] Hint Resolve comp_cred_len_k : ak.
Lemma read_toks_k : forall hs ls p l, ak hs ls (read_toks p l).
Proof. induction l; cbn [read_toks]; k_auto. Qed.
#[local] Hint Resolve read_toks_k : ak.
Lemma encode_tokens_k : forall hs ls p n l, ak hs ls (encode_tokens p n l).
Proof. intros. unfold encode_tokens. k_auto. Qed.
#[local] Hint Resolve encode_tokens_k : ak.
Lemma kid_compact_encoding_k : forall hs ls a, ak hs ls (kid_compact_encoding a).
Proof. intros. unfold kid_compact_encoding. k_auto. Qed.
#[local] Hint Resolve kid_compact_encoding_k : ak.
Lemma id_cred_of_k : forall hs ls a, ak hs ls (id_cred_of a).
Proof. intros. unfold id_cred_of. k_auto. Qed.
#[local] Hint Resolve id_cred_of_k : ak.
Lemma cred_bytes_k : forall hs ls a n, ak hs ls (cred_bytes a n).
Proof. intros. unfold cred_bytes. k_auto. Qed.
#[local] Hint Resolve cred_bytes_k : ak.
Lemma comp_mac_context_length_k : forall hs ls a, ak hs ls (comp_mac_context_length a).
Proof. intros. unfold comp_mac_context_length. k_auto. Qed.
#[local] Hint Resolve comp_mac_context_length_k : ak.
Lemma comp_mac_context_k : forall hs ls a n, ak hs ls (comp_mac_context a n).
Proof. intros. unfold comp_mac_context. k_auto. Qed.
#[local] Hint Resolve comp_mac_context_k : ak.
Lemma comp_mac_length_k : forall hs ls, ak hs ls (comp_mac_length).
Proof. intros. unfold comp_mac_length. k_auto. Qed.
#[local] Hint Resolve comp_mac_length_k : ak.
Lemma comp_sign_or_mac_length_k : forall hs ls, ak hs ls (comp_sign_or_mac_length).
Proof. intros. unfold comp_sign_or_mac_length. k_auto. Qed.
#[local] Hint Resolve comp_sign_or_mac_length_k : ak.
Lemma comp_mac_k : forall hs ls m n, ak hs ls (comp_mac m n).
Proof. intros. unfold comp_mac. k_auto. Qed.
#[local] Hint Resolve comp_mac_k : ak.
Lemma sign_cose_sign_1_k : forall hs ls a m b n, In (cr_priv a) ls -> ak hs ls (sign_cose_sign_1 a m b n).
Proof. intros. unfold sign_cose_sign_1. k_auto. Qed.
#[local] Hint Resolve sign_cose_sign_1_k : ak.
Lemma verify_cose_sign_1_k : forall hs ls m a b c, ak hs ls (verify_cose_sign_1 m a b c).
Proof. intros. unfold verify_cose_sign_1. k_auto. Qed.
#[local] Hint Resolve verify_cose_sign_1_k : ak.
Lemma comp_sign_or_mac_k : forall hs ls a m b n, In (cr_priv a) ls -> ak hs ls (comp_sign_or_mac a m b n).
Proof. intros. unfold comp_sign_or_mac. k_auto. Qed.
#[local] Hint Resolve comp_sign_or_mac_k : ak.
Lemma verify_sign_or_mac_k : forall hs ls m a b c, ak hs ls (verify_sign_or_mac m a b c).
Proof. intros. unfold verify_sign_or_mac. k_auto. Qed.
#[local] Hint Resolve verify_sign_or_mac_k : ak.
Lemma hash_into_th_k : forall hs ls i, ak hs ls (hash_into_th (cs_hash s) i).
Proof. intros. unfold hash_into_th. k_auto. Qed.
#[local] Hint Resolve hash_into_th_k : ak.
Lemma kdf_k : forall hs ls x len l cx k n, ak hs ls cx -> ak hs ls k -> ak hs ls (kdf x len l cx k n).
Proof. intros hs ls x len l cx k n H1 H2. unfold kdf. k_auto. Qed.
#[local] Hint Resolve kdf_k : ak.
Lemma gen_dh_keys_k : forall hs ls, ak hs ls (gen_dh_keys).
Proof. intros. unfold gen_dh_keys. k_auto. Qed.
#[local] Hint Resolve gen_dh_keys_k : ak.
Lemma comp_dh_secret_k : forall hs ls, ak hs ls (comp_dh_secret).
Proof. intros. unfold comp_dh_secret. k_auto. Qed.
#[local] Hint Resolve comp_dh_secret_k : ak.
Lemma comp_th_2_k : forall hs ls, ak hs ls (comp_th_2).
Proof. intros. unfold comp_th_2. k_auto. Qed.
#[local] Hint Resolve comp_th_2_k : ak.
Lemma comp_prk_2e_k : forall hs ls, ak hs ls (comp_prk_2e).
Proof. intros. unfold comp_prk_2e. k_auto. Qed.
#[local] Hint Resolve comp_prk_2e_k : ak.
Lemma comp_salt_3e2m_k : forall hs ls n, ak hs ls (comp_salt_3e2m n).
Proof. intros. unfold comp_salt_3e2m. k_auto. Qed.
#[local] Hint Resolve comp_salt_3e2m_k : ak.
Lemma agree_eph_k : forall hs ls p, ak hs ls (agree_eph p (cs_ecc s)).
Proof. intros. unfold agree_eph. k_auto. Qed.
#[local] Hint Resolve agree_eph_k : ak.
Lemma agree_static_k : forall hs ls a, In (cr_priv a) ls -> ak hs ls (agree_static a (cs_ecc s)).
Proof. intros. unfold agree_static. k_auto. Qed.
#[local] Hint Resolve agree_static_k : ak.
Lemma comp_grx_k : forall hs ls a b, (ro = RESPONDER -> In (cr_priv a) ls) -> ak hs ls (comp_grx a b (cs_ecc s)).
Proof. intros. unfold comp_grx. k_auto. apply agree_static_k. apply H. lia. Qed.
#[local] Hint Resolve comp_grx_k : ak.
Lemma prk_static_k : forall hs ls s' g n, ak hs ls (s' (cs_hash s)) -> ak hs ls (g (cs_ecc s)) -> ak hs ls (prk_static s' g n).
Proof. intros. unfold prk_static. k_auto. Qed.
#[local] Hint Resolve prk_static_k : ak.
Lemma comp_prk_3e2m_k : forall hs ls a b, (ro = RESPONDER -> In (cr_priv a) ls) -> ak hs ls (comp_prk_3e2m a b).
Proof. intros. unfold comp_prk_3e2m. k_auto. Qed.
#[local] Hint Resolve comp_prk_3e2m_k : ak.
Lemma comp_plaintext_len_k : forall hs ls m n, ak hs ls (comp_plaintext_len m n).
Proof. intros. unfold comp_plaintext_len. k_auto. Qed.
#[local] Hint Resolve comp_plaintext_len_k : ak.
Lemma fill_plaintext_k : forall hs ls a b c n, ak hs ls (fill_plaintext a b c n).
Proof. intros. unfold fill_plaintext. k_auto. Qed.
#[local] Hint Resolve fill_plaintext_k : ak.
Lemma prepare_plaintext_2_k : forall hs ls a b n, ak hs ls (prepare_plaintext_2 a b n).
Proof. intros. unfold prepare_plaintext_2. k_auto. Qed.
#[local] Hint Resolve prepare_plaintext_2_k : ak.
Lemma comp_keystream_k : forall hs ls a n, ak hs ls (comp_keystream a n).
Proof. intros. unfold comp_keystream. k_auto. Qed.
#[local] Hint Resolve comp_keystream_k : ak.
Lemma prepare_message_2_k : forall hs ls a n, ak hs ls (prepare_message_2 a n).
Proof. intros. unfold prepare_message_2. k_auto. Qed.
#[local] Hint Resolve prepare_message_2_k : ak.
Lemma comp_ciphertext_2_len_k : forall hs ls m, ak hs ls (comp_ciphertext_2_len m).
Proof. intros. unfold comp_ciphertext_2_len. k_auto. Qed.
#[local] Hint Resolve comp_ciphertext_2_len_k : ak.
Lemma parse_msg_2_k : forall hs ls m n, ak hs ls (parse_msg_2 m n).
Proof. intros. unfold parse_msg_2. k_auto. Qed.
#[local] Hint Resolve parse_msg_2_k : ak.
Lemma parse_id_cred_k : forall hs ls b i, ak hs ls (parse_id_cred b i).
Proof. intros. unfold parse_id_cred. k_auto. Qed.
#[local] Hint Resolve parse_id_cred_k : ak.
Lemma store_tokens_k : forall hs ls l, ak hs ls (store_tokens l).
Proof. intros. unfold store_tokens. k_auto. Qed.
#[local] Hint Resolve store_tokens_k : ak.
Lemma store_peer_cid_k : forall hs ls l, ak hs ls (store_peer_cid l).
Proof. intros. unfold store_peer_cid. k_auto. Qed.
#[local] Hint Resolve store_peer_cid_k : ak.
Lemma parse_plaintext_2_k : forall hs ls p, ak hs ls (parse_plaintext_2 p).
Proof. intros. unfold parse_plaintext_2. k_auto. Qed.
#[local] Hint Resolve parse_plaintext_2_k : ak.
Lemma comp_th_next_k : forall hs ls a b s m p, ak hs ls (comp_th_next a b s m p).
Proof. intros. unfold comp_th_next. k_auto. Qed.
#[local] Hint Resolve comp_th_next_k : ak.
Lemma comp_th_3_k : forall hs ls m p, ak hs ls (comp_th_3 m p).
Proof. intros. apply comp_th_next_k. Qed.
#[local] Hint Resolve comp_th_3_k : ak.
Lemma comp_th_4_k : forall hs ls m p, ak hs ls (comp_th_4 m p).
Proof. intros. apply comp_th_next_k. Qed.
#[local] Hint Resolve comp_th_4_k : ak.
Lemma comp_salt_4e3m_k : forall hs ls n, ak hs ls (comp_salt_4e3m n).
Proof. intros. unfold comp_salt_4e3m. k_auto. Qed.
#[local] Hint Resolve comp_salt_4e3m_k : ak.
Lemma comp_giy_k : forall hs ls a b, (ro = INITIATOR -> In (cr_priv a) ls) -> ak hs ls (comp_giy a b (cs_ecc s)).
Proof. intros. unfold comp_giy. k_auto. apply agree_static_k. apply H. lia. Qed.
#[local] Hint Resolve comp_giy_k : ak.
Lemma comp_prk_4e3m_k : forall hs ls a b, (ro = INITIATOR -> In (cr_priv a) ls) -> ak hs ls (comp_prk_4e3m a b).
Proof. intros. unfold comp_prk_4e3m. k_auto. Qed.
#[local] Hint Resolve comp_prk_4e3m_k : ak.
Lemma prepare_plaintext_3_k : forall hs ls a b n, ak hs ls (prepare_plaintext_3 a b n).
Proof. intros. unfold prepare_plaintext_3. k_auto. Qed.
#[local] Hint Resolve prepare_plaintext_3_k : ak.
Lemma expand_part_k : forall hs ls a b n, ak hs ls (expand_part a b n).
Proof. intros. unfold expand_part. k_auto. Qed.
#[local] Hint Resolve expand_part_k : ak.
Lemma key_iv_aad_k : forall hs ls a b n, ak hs ls (key_iv_aad a b n).
Proof. intros. unfold key_iv_aad. k_auto. Qed.
#[local] Hint Resolve key_iv_aad_k : ak.
Lemma comp_key_iv_aad_3_k : forall hs ls a b n, ak hs ls (comp_key_iv_aad_3 a b n).
Proof. intros. unfold comp_key_iv_aad_3. k_auto. Qed.
#[local] Hint Resolve comp_key_iv_aad_3_k : ak.
Lemma aead_encrypt_k : forall hs ls a b c d n, ak hs ls (aead_encrypt a b c d n).
Proof. intros. unfold aead_encrypt. k_auto. Qed.
#[local] Hint Resolve aead_encrypt_k : ak.
Lemma aead_decrypt_k : forall hs ls a b c d n, ak hs ls (aead_decrypt a b c d n).
Proof. intros. unfold aead_decrypt. k_auto. Qed.
#[local] Hint Resolve aead_decrypt_k : ak.
Lemma comp_ciphertext_k : forall hs ls a b c d n, ak hs ls (comp_ciphertext a b c d n).
Proof. intros. unfold comp_ciphertext. k_auto. Qed.
#[local] Hint Resolve comp_ciphertext_k : ak.
Lemma decrypt_ciphertext_3_k : forall hs ls a b c d n, ak hs ls (decrypt_ciphertext_3 a b c d n).
Proof. intros. unfold decrypt_ciphertext_3. k_auto. Qed.
#[local] Hint Resolve decrypt_ciphertext_3_k : ak.
Lemma gen_msg_3_k : forall hs ls a n, ak hs ls (gen_msg_3 a n).
Proof. intros. unfold gen_msg_3. k_auto. Qed.
#[local] Hint Resolve gen_msg_3_k : ak.
Lemma parse_plaintext_3_k : forall hs ls p, ak hs ls (parse_plaintext_3 p).
Proof. intros. unfold parse_plaintext_3. k_auto. Qed.
#[local] Hint Resolve parse_plaintext_3_k : ak.
Lemma prepare_plaintext_4_k : forall hs ls n, ak hs ls (prepare_plaintext_4 n).
Proof. intros. unfold prepare_plaintext_4. k_auto. Qed.
#[local] Hint Resolve prepare_plaintext_4_k : ak.
Lemma compute_key_iv_aad_4_k : forall hs ls a b n, ak hs ls (compute_key_iv_aad_4 a b n).
Proof. intros. unfold compute_key_iv_aad_4. k_auto. Qed.
#[local] Hint Resolve compute_key_iv_aad_4_k : ak.
Lemma kdf_into_prk_k : forall hs ls a b cx, ak hs ls cx -> ak hs ls (kdf_into_prk a b cx).
Proof. intros hs ls a b cx H1. unfold kdf_into_prk. k_auto. Qed.
#[local] Hint Resolve kdf_into_prk_k : ak.
Lemma compute_prk_out_k : forall hs ls, ak hs ls (compute_prk_out).
Proof. intros. unfold compute_prk_out. k_auto. Qed.
#[local] Hint Resolve compute_prk_out_k : ak.
Lemma compute_new_prk_out_k : forall hs ls e, ak hs ls (compute_new_prk_out e).
Proof. intros. unfold compute_new_prk_out. k_auto. Qed.
#[local] Hint Resolve compute_new_prk_out_k : ak.
Lemma compute_prk_exporter_k : forall hs ls n, ak hs ls (compute_prk_exporter n).
Proof. intros. unfold compute_prk_exporter. k_auto. Qed.
#[local] Hint Resolve compute_prk_exporter_k : ak.
Lemma export_prk_exporter_k : forall hs ls nn l n, ak hs ls (export_prk_exporter nn l n).
Proof. intros. unfold export_prk_exporter. k_auto. Qed.
#[local] Hint Resolve export_prk_exporter_k : ak.
Lemma ead_compose_k : forall hs ls, ak hs ls (ead_compose).
Proof. intros. unfold ead_compose. k_auto. Qed.
#[local] Hint Resolve ead_compose_k : ak.
Lemma ead_process_k : forall hs ls, ak hs ls (ead_process).
Proof. intros. unfold ead_process. k_auto. Qed.
#[local] Hint Resolve ead_process_k : ak.
Lemma export_key_update_k : forall hs ls nn e, ak hs ls (export_key_update nn e).
Proof. intros. unfold export_key_update. k_auto. Qed.
#[local] Hint Resolve export_key_update_k : ak.
Lemma export_oscore_session_k : forall hs ls nn a b c d, ak hs ls (export_oscore_session nn a b c d).
Proof. intros. unfold export_oscore_session. k_auto. Qed.
#[local] Hint Resolve export_oscore_session_k : ak.

(** ** Whole calls *)
Ltac k_side := let X := fresh in intro X; first [k_in | exfalso; match goal with H : ro = _ |- _ => rewrite X in H; discriminate H end].
Ltac k_all := repeat first
  [ lazymatch goal with
    | |- ak _ _ (comp_prk_3e2m _ _) => apply comp_prk_3e2m_k; k_side
    | |- ak _ _ (comp_prk_4e3m _ _) => apply comp_prk_4e3m_k; k_side
    | |- ak _ _ (comp_sign_or_mac _ _ _ _) => apply comp_sign_or_mac_k; k_in
    end | k_step ].
Definition starts (c : ctx) {A} (m : M A) : Prop :=
  forall a w', m (Wd c t0) = Ret a w' -> exists e, w_tr w' = e ++ t0 /\ asks e.
Lemma starts_ret : forall c A (a : A), starts c (ret a).
Proof. intros c A a x w' R. inversion R; subst. exists []. now split. Qed.
Lemma starts_getc : forall c A (k : ctx -> M A), starts c (k c) -> starts c (bind getc k).
Proof. intros c A k H. exact H. Qed.
Lemma starts_modify : forall c A f (m : M A), starts (f c) m -> starts c (modify f ;;; m).
Proof. intros c A f m H. exact H. Qed.
Lemma starts_on : forall c A (m : M A), the_suite c = s -> c_role c = ro -> ak [] [] m -> starts c m.
Proof.
  intros c A m H1 H2 H a w' R. assert (O : on [] (Wd c t0)) by (repeat split; assumption).
  assert (K : knows [] [] []) by (split; intros k []). destruct (H _ _ _ _ O K R) as [e O']. rewrite app_nil_r in O'.
  exists e. split; apply O'.
Qed.
Ltac s_step :=
  lazymatch goal with
  | |- starts _ (ret _) => apply starts_ret
  | |- starts _ (bind getc _) => apply starts_getc
  | |- starts _ (bind (enter _ _) _) => unfold enter; apply starts_modify
  | |- starts _ (bind (modify (set_csuite_idx _)) _) => apply starts_modify
  | |- starts _ (if ?b then _ else _) => split_bool b
  | |- starts _ (let '(_, _) := ?x in _) => destruct x
  | |- starts _ (match ?x with _ => _ end) => destruct x
  end.
Lemma message_1_compose_k : forall nn n c, ro = INITIATOR -> csuite_at c (c_csuite_len c - 1) = s -> starts c (message_1_compose nn n).
Proof.
  intros nn n c R H. unfold message_1_compose. repeat s_step. apply starts_on; [exact H|symmetry; exact R|]. k_all.
Qed.
Lemma message_1_process_k : forall nn m c, ro = RESPONDER -> csuite_at c (c_csuite_len c - 1) = s -> starts c (message_1_process nn m).
Proof.
  intros nn m c R H. unfold message_1_process. repeat s_step. apply starts_on; [exact H|symmetry; exact R|]. k_all.
Qed.
Lemma message_2_compose_k : forall nn n c, ro = RESPONDER -> the_suite c = s -> starts c (message_2_compose nn n).
Proof.
  intros nn n c R H. unfold message_2_compose. repeat s_step. apply starts_on; [exact H|symmetry; exact R|]. k_all.
Qed.
Lemma message_2_process_k : forall nn m c, ro = INITIATOR -> the_suite c = s -> starts c (message_2_process nn m).
Proof.
  intros nn m c R H. unfold message_2_process. repeat s_step. apply starts_on; [exact H|symmetry; exact R|]. k_all.
Qed.
Lemma message_3_compose_k : forall nn n c, ro = INITIATOR -> the_suite c = s -> starts c (message_3_compose nn n).
Proof.
  intros nn n c R H. unfold message_3_compose. repeat s_step. apply starts_on; [exact H|symmetry; exact R|]. k_all.
Qed.
Lemma message_3_process_k : forall nn m c, ro = RESPONDER -> the_suite c = s -> starts c (message_3_process nn m).
Proof.
  intros nn m c R H. unfold message_3_process. repeat s_step; (apply starts_on; [exact H|symmetry; exact R|]); k_all.
Qed.
Lemma message_4_compose_k : forall nn n c, ro = RESPONDER -> the_suite c = s -> starts c (message_4_compose nn n).
Proof.
  intros nn n c R H. unfold message_4_compose. repeat s_step. apply starts_on; [exact H|symmetry; exact R|]. k_all.
Qed.
Lemma message_4_process_k : forall nn m c, ro = INITIATOR -> the_suite c = s -> starts c (message_4_process nn m).
Proof.
  intros nn m c R H. unfold message_4_process. repeat s_step; (apply starts_on; [exact H|symmetry; exact R|]); k_all.
Qed.
End Ask.

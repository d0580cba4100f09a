(** Every handshake key is derived once per session.  No code of /repo is modelled here. *)
From Verif Require Import Monad Api Cbor CborGen Common Msg1 Msg2 Msg3 Msg4 Exporter History Spec Rfc Logic Frame CborProofs RfcProofs HistoryProofs Attempts AttemptProofs Labels.
From Verif Require ActiveProofs.

Section History.
Context {E : env}.
Definition labels_of (k : mkind) : list Z :=
  match k with M1c | M1p => [] | M2c | M2p => [0; 1; 2] | M3c | M3p => [5; 6; 3; 4] | M4c | M4p => [8; 9] end.
Definition other_labels : list Z := [7; 10; 7; 10; 11].
Lemma tot_le : forall S T A (m : M A), tot S m -> (forall L, 0 <= L <= 9 -> (occ L S <= occ L T)%nat) -> tot T m.
Proof.
  intros S T A m H K w. specialize (H w). destruct (m w); [|exact I]. destruct H as (e & X & W & F). exists e. split; [exact X|]. split; [exact W|].
  intros L HL. specialize (F L HL). specialize (K L HL). lia.
Qed.
Lemma tot_map : forall S A B (m : M A) (f : A -> B), tot S m -> tot S (bind m (fun x => ret (f x))).
Proof. intros S A B m f H w. specialize (H w). unfold bind. destruct (m w); [exact H|exact I]. Qed.
Lemma cfg_t : forall S f, tot S (cfg f).
Proof. intros S f w. unfold cfg, bind, getc, modify. destruct (f (w_ctx w)). exists []. split; [reflexivity|]. split; [constructor|]. intros. apply Nat.le_0_l. Qed.
Lemma msg_out_t : forall S m, tot S m -> tot S (msg_out m).
Proof. intros S m H w. specialize (H w). unfold msg_out, bind. destruct (m w) as [[r b] w'|]; [exact H|exact I]. Qed.
Lemma no_out_t : forall S m, tot S m -> tot S (no_out m).
Proof. intros S m H w. specialize (H w). unfold no_out, bind. destruct (m w) as [r w'|]; [exact H|exact I]. Qed.
Ltac less := eapply tot_le; [first [apply export_t|apply update_t|apply oscore_t]|]; intros L HL; unfold occ, other_labels; cbn [count_occ];
  repeat match goal with |- context [Z.eq_dec ?a ?b] => destruct (Z.eq_dec a b) end; lia.
Lemma api_t : forall a, tot (match kind a with Some k => labels_of k | None => other_labels end) (do_api a).
Proof.
  intro a. destruct a; cbn [do_api kind labels_of]; try (apply cfg_t).
  - apply msg_out_t, m1_compose_t.
  - apply no_out_t, m1_process_t.
  - apply msg_out_t, m2_compose_t.
  - apply no_out_t, m2_process_t.
  - apply msg_out_t, m3_compose_t.
  - apply no_out_t, m3_process_t.
  - apply msg_out_t, m4_compose_t.
  - apply no_out_t, m4_process_t.
  - apply msg_out_t. less.
  - apply no_out_t. less.
  - match goal with |- tot _ (bind (export_oscore_session ?n ?a ?b ?c ?d) _) => assert (H : tot other_labels (export_oscore_session n a b c d)) by less end. intro w.
    specialize (H w). unfold bind. destruct (export_oscore_session _ _ _ _ _ w) as [[r o] w'|]; [|exact I]. exact H.
  - intro w. unfold bind, getc. destruct (error_get_code _ _). exists []. split; [reflexivity|]. split; [constructor|]. intros. apply Nat.le_0_l.
  - intro w. unfold bind, getc. destruct (error_get_cipher_suites _ _ _ _) as [[r o] q]. exists []. split; [reflexivity|]. split; [constructor|]. intros. apply Nat.le_0_l.
Qed.
Lemma one_label : forall L a w r w', 0 <= L <= 9 -> L <> 7 -> do_api a w = Ret r w' ->
  exists e, w_tr w' = e ++ w_tr w /\ count (derives L) e <= per_call (fun k => nz (occ L (labels_of k))) a.
Proof.
  intros L a w r w' HL H7 H. pose proof (api_t a w) as T. rewrite H in T. destruct T as (e & X & _ & F). exists e. split; [exact X|].
  specialize (F L HL). rewrite count_nat. unfold per_call, nz. destruct (kind a); [lia|].
  assert (Z0 : occ L other_labels = 0%nat). { unfold occ, other_labels. cbn [count_occ]. repeat match goal with |- context [Z.eq_dec ?a ?b] => destruct (Z.eq_dec a b) end; lia. }
  lia.
Qed.
Definition f_label (L : Z) : Z -> Z := before (if L <=? 2 then 2 else if L <=? 6 then 3 else 4).
Lemma labels_once : forall l w rs w' e L, reachable w -> ~ In AInit l -> runs l w = Ret rs w' -> w_tr w' = e ++ w_tr w ->
  0 <= L <= 9 -> L <> 7 -> count (derives L) e <= 1.
Proof.
  intros l w rs w' e L RW A H T HL H7. apply (total_le (derives L) (fun k => nz (occ L (labels_of k))) (f_label L) 1 l w rs w' e) with (4 := A) (6 := H) (7 := T).
  - intros. now apply one_label with r.
  - intro s. apply before_le.
  - assert (C : L = 0 \/ L = 1 \/ L = 2 \/ L = 3 \/ L = 4 \/ L = 5 \/ L = 6 \/ L = 8 \/ L = 9) by lia.
    intros k a b d X; destruct k; cbn [required] in X; injection X as <- <- <-; repeat destruct C as [->|C]; try subst L; vm_compute; split; discriminate.
  - now apply reachable_nonneg.
Qed.
Lemma runs_wf : forall l w rs w', runs l w = Ret rs w' -> exists e, w_tr w' = e ++ w_tr w /\ Forall wf e.
Proof.
  induction l as [|a l IH]; intros w rs w' H; [apply runs_nil in H as [_ ->]; exists []; split; [reflexivity|constructor]|].
  apply runs_cons in H as (r & w1 & rs' & H1 & H2 & _). pose proof (api_t a w) as T. rewrite H1 in T. destruct T as (e1 & T1 & W1 & _).
  destruct (IH _ _ _ H2) as (e2 & T2 & W2). exists (e2 ++ e1). rewrite T2, T1. split; [apply app_assoc|]. apply Forall_app. now split.
Qed.
Lemma infos : forall l w rs w' e kid i n r o, runs l w = Ret rs w' -> w_tr w' = e ++ w_tr w -> In (EvExpand kid i n r o) e ->
  exists label context len, 0 <= label <= 65535 /\ 0 <= len < 2 ^ 32 /\ i = info label context len.
Proof.
  intros l w rs w' e kid i n r o H T I. destruct (runs_wf _ _ _ _ H) as (e' & T' & W). rewrite T in T'. apply app_inv_tail in T' as <-.
  rewrite Forall_forall in W. exact (W _ I).
Qed.
End History.
Lemma infos_apart : forall l c n l' c' n', 0 <= l <= 65535 -> 0 <= l' <= 65535 -> 0 <= n < 2 ^ 32 -> 0 <= n' < 2 ^ 32 -> zlen (info l c n) < 2 ^ 64 ->
  info l c n = info l' c' n' -> l = l' /\ c = c' /\ n = n'.
Proof.
  intros l c n l' c' n' B B' N N' L H. pose proof (ActiveProofs.info_le l c n) as Q1. pose proof (ActiveProofs.info_le l' c' n') as Q. rewrite <- H in Q.
  unfold info in H. apply cbor_seq_inj in H.
  - injection H as -> -> ->. auto.
  - repeat constructor; cbn [sane]; lia.
  - repeat constructor; cbn [sane]; lia.
Qed.
Lemma label_meaning : forall L l c n kid m r o, 0 <= L < 24 -> 0 <= l <= 65535 -> zlen c < 2 ^ 64 ->
  (derives L (EvExpand kid (info l c n) m r o) = true <-> l = L /\ c <> []).
Proof.
  intros L l c n kid m r o HL Hl HC. rewrite <- enc_info_rfc. unfold enc_info. destruct (Z_lt_dec l 24) as [Q|Q].
  - rewrite enc_int_small by lia. cbn [app].
    assert (B : exists y z, enc_bstr c ++ enc_int n = y :: z /\ (y = 64 <-> c = [])).
    { unfold enc_bstr, enc_head. assert (C0 : c = [] <-> zlen c = 0) by (split; [intros ->; reflexivity|apply zlen_0]). pose proof (zlen_nonneg _ c).
      repeat match goal with |- exists _ _, ((if ?b then _ else _) ++ _) ++ _ = _ /\ _ => destruct b eqn:? end; eexists _, _; (split; [reflexivity|]); rewrite C0;
      repeat match goal with X : (_ <? _) = true |- _ => apply Z.ltb_lt in X | X : (_ <? _) = false |- _ => apply Z.ltb_ge in X end; lia. }
    destruct B as (y & z & -> & B). cbn [derives]. rewrite andb_true_iff, negb_true_iff, Z.eqb_eq, Z.eqb_neq. tauto.
  - destruct (enc_int_big l) as (x & y & -> & X); [lia|]. cbn [app]. split; [|lia]. unfold derives. destruct (y ++ enc_bstr c ++ enc_int n); [discriminate|].
    intro D. apply andb_true_iff in D as [D _]. apply Z.eqb_eq in D. lia.
Qed.

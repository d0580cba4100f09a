(** Symbolic execution of successful runs: rules with explicit worlds, lemmas on [Uses]. *)
From Verif Require Import Monad Common Msg1 Msg2 Msg3 Rfc Uses Facts Logic Frame.

Definition Any : ub -> Prop := fun _ => True.

(** ** Monotonicity of what a trace shows *)
Lemma key_of_app : forall kid t t' x, key_of kid t = Some x -> key_of kid (t ++ t') = Some x.
Proof.
  induction t as [|e t IH]; intros t' x H; [discriminate|]. cbn [app].
  destruct e; cbn [key_of] in *; auto.
  - destruct ((r =? OK) && beqb kid kid0); auto.
  - destruct (beqb kid kid0); auto.
Qed.
Lemma with_key_l : forall t t' e kid kt key, with_key t e kid kt key -> with_key (t' ++ t) e kid kt key.
Proof.
  intros t t' e kid kt key (t1 & t2 & -> & H). exists (t' ++ t1), t2. split; [now rewrite app_assoc|exact H].
Qed.
Lemma with_key_r : forall t t' e kid kt key, with_key t e kid kt key -> with_key (t ++ t') e kid kt key.
Proof.
  intros t t' e kid kt key (t1 & t2 & -> & H). exists t1, (t2 ++ t').
  split; [now rewrite <- app_assoc|now apply key_of_app].
Qed.
(** [mono P]: [P] keeps holding when the trace grows at either end. *)
Definition mono (P : list event -> Prop) : Prop :=
  (forall t t', P t -> P (t' ++ t)) /\ (forall t t', P t -> P (t ++ t')).
Lemma mono_in : forall e, mono (In e).
Proof. intro e. split; intros t t' H; apply in_or_app; auto. Qed.
Lemma mono_key : forall e kid kt key, mono (fun t => with_key t e kid kt key).
Proof. intros. split; intros t t' H; [now apply with_key_l|now apply with_key_r]. Qed.
Lemma mono_ex : forall A (P : A -> list event -> Prop), (forall a, mono (P a)) -> mono (fun t => exists a, P a t).
Proof. intros A P H. split; intros t t' [a Ha]; exists a; destruct (H a); auto. Qed.
Lemma mono_and : forall P Q, mono P -> mono Q -> mono (fun t => P t /\ Q t).
Proof. intros P Q [A B] [C D]. split; intros t t' [X Y]; auto. Qed.
Lemma mono_const : forall P : Prop, mono (fun _ => P).
Proof. intros. split; auto. Qed.
Lemma hashed_mono : forall x n y, mono (fun t => hashed t x n y). Proof. intros. apply mono_in. Qed.
Lemma extracted_mono : forall a b c, mono (fun t => extracted t a b c).
Proof. intros. unfold extracted. apply mono_ex. intro. apply mono_key. Qed.
Lemma expanded_mono : forall a b n c, mono (fun t => expanded t a b n c).
Proof.
  intros. unfold expanded. apply mono_ex. intro. apply mono_ex. intro.
  apply mono_and; [apply mono_key|apply mono_const].
Qed.
Lemma agreed_mono : forall a b c, mono (fun t => agreed t a b c).
Proof. intros. unfold agreed. apply mono_ex. intro. apply mono_key. Qed.
Lemma agreed_lt_mono : forall a b c, mono (fun t => agreed_lt t a b c). Proof. intros. apply mono_in. Qed.
Lemma made_mono : forall a b, mono (fun t => made t a b).
Proof. intros. unfold made. apply mono_ex. intro. apply mono_in. Qed.
Lemma signed_mono : forall a b c, mono (fun t => signed t a b c). Proof. intros. apply mono_in. Qed.
Lemma verified_mono : forall a b c, mono (fun t => verified t a b c).
Proof. intros. unfold verified. apply mono_ex. intro. apply mono_key. Qed.
Lemma encrypted_mono : forall a b c d e, mono (fun t => encrypted t a b c d e).
Proof. intros. unfold encrypted. apply mono_ex. intro. apply mono_key. Qed.
Lemma decrypted_mono : forall a b c d e, mono (fun t => decrypted t a b c d e).
Proof. intros. unfold decrypted. apply mono_ex. intro. apply mono_key. Qed.
Lemma full_app : forall t t', full (t ++ t') -> full t /\ full t'.
Proof.
  intros t t' [A B]. split; split; intros; [eapply A|eapply B|eapply A|eapply B]; apply in_or_app; eauto.
Qed.
Lemma full_cons : forall e t, full (e :: t) -> full t.
Proof. intros e t H. change (e :: t) with ([e] ++ t) in H. now apply full_app in H. Qed.

(** Lift a fact about a piece of the trace to the whole. *)
Ltac mono_of P :=
  lazymatch P with
  | hashed _ ?a ?b ?c => constr:(hashed_mono a b c)
  | extracted _ ?a ?b ?c => constr:(extracted_mono a b c)
  | expanded _ ?a ?b ?c ?d => constr:(expanded_mono a b c d)
  | agreed _ ?a ?b ?c => constr:(agreed_mono a b c)
  | agreed_lt _ ?a ?b ?c => constr:(agreed_lt_mono a b c)
  | made _ ?a ?b => constr:(made_mono a b)
  | signed _ ?a ?b ?c => constr:(signed_mono a b c)
  | verified _ ?a ?b ?c => constr:(verified_mono a b c)
  | encrypted _ ?a ?b ?c ?d ?e => constr:(encrypted_mono a b c d e)
  | decrypted _ ?a ?b ?c ?d ?e => constr:(decrypted_mono a b c d e)
  | In ?e _ => constr:(mono_in e)
  end.
Lemma mono_cons : forall P e t, mono P -> P t -> P (e :: t).
Proof. intros P e t [A _] H. apply (A t [e] H). Qed.
Lemma mono_appl : forall P t t', mono P -> P t -> P (t ++ t').
Proof. intros P t t' [_ A] H. now apply A. Qed.
Lemma mono_appr : forall P t t', mono P -> P t' -> P (t ++ t').
Proof. intros P t t' [A _] H. now apply A. Qed.
Ltac lift :=
  solve [ assumption
        | lazymatch goal with
          | |- ?P =>
            let M := mono_of P in
            first [ simple apply (mono_appl _ _ _ M); lift
                  | simple apply (mono_appr _ _ _ M); lift
                  | simple apply (mono_cons _ _ _ M); lift
                  | apply in_eq ]
          end ].

(** ** Rules *)
Section Rules.
Context {E : env}.

Lemma sy_alloc : forall b n w (Q : bool -> world -> Prop),
  (forall ok, Q ok (Wd (w_ctx w) (EvAlloc b n ok :: w_tr w))) -> sat Any (alloc b n) w Q.
Proof.
  intros b n w Q H. unfold sat. rewrite alloc_run. destruct cf_stack as [lim|].
  - destruct ((0 <? n) && (n <=? lim)); [apply H|exact I].
  - apply H.
Qed.
Lemma sy_free : forall b w (Q : unit -> world -> Prop),
  Q tt (Wd (w_ctx w) (EvFree b :: w_tr w)) -> sat Any (free b) w Q.
Proof.
  intros b w Q H. unfold sat, free, trace, bind, check, emit, ret.
  destruct (0 <? live b (w_tr w)); [exact H|exact I].
Qed.
Lemma sy_check : forall b u w (Q : unit -> world -> Prop), (b = true -> Q tt w) -> sat Any (check b u) w Q.
Proof. intros. apply sat_check; [intro; exact I|assumption]. Qed.
Lemma sy_need : forall A (o : option A) u w (Q : A -> world -> Prop),
  (forall a, o = Some a -> Q a w) -> sat Any (need o u) w Q.
Proof. intros. apply sat_need; [intro; exact I|assumption]. Qed.
Ltac pr :=
  lazymatch goal with
  | |- sat _ (bind _ _) _ _ => apply sat_bind
  | |- sat _ (ret _) _ _ => apply sat_ret
  | |- sat _ getc _ _ => apply sat_getc
  | |- sat _ trace _ _ => apply sat_trace
  | |- sat _ (need _ _) _ _ => apply sy_need; intros ? ?
  | |- sat _ (check _ _) _ _ => apply sy_check; intros ?
  | |- sat _ (modify _) _ _ => apply sat_modify
  | |- sat _ (emit _) _ _ => apply sat_emit
  | |- sat _ (match ?x with _ => _ end) _ _ => destruct x as [? ?]
  | |- sat _ (let _ := _ in _) _ _ => cbv zeta
  end.
Ltac prs := repeat pr; cbn [w_ctx w_tr] in *.

Lemma sy_import : forall kt key w (Q : Z * bytes -> world -> Prop),
  (forall r kid, Q (r, kid) (Wd (w_ctx w) (EvImport kt key r kid :: w_tr w))) ->
  sat Any (call_import kt key) w Q.
Proof. intros. unfold call_import. prs. apply H. Qed.
Lemma sy_destroy : forall kid w (Q : Z -> world -> Prop),
  (forall r, Q r (Wd (w_ctx w) (EvDestroy kid r :: w_tr w))) -> sat Any (call_destroy kid) w Q.
Proof. intros. unfold call_destroy. prs. apply H. Qed.
Lemma sy_mkpair : forall kid a b w (Q : Z * bytes * bytes -> world -> Prop),
  (forall r priv pub, zlen priv <= a -> zlen pub <= b ->
     Q (r, priv, pub) (Wd (w_ctx w) (EvMkPair kid r priv pub :: w_tr w))) ->
  sat Any (call_mkpair kid a b) w Q.
Proof. intros. unfold call_mkpair, out_ok. prs. apply H; lia. Qed.
Lemma sy_agree : forall kid p n w (Q : Z * bytes -> world -> Prop),
  (forall r out, zlen out <= n -> Q (r, out) (Wd (w_ctx w) (EvAgree kid p r out :: w_tr w))) ->
  sat Any (call_agree kid p n) w Q.
Proof. intros. unfold call_agree, out_ok. prs. apply H; lia. Qed.
Lemma sy_sign : forall kid p n w (Q : Z * bytes -> world -> Prop),
  (forall r out, zlen out <= n -> Q (r, out) (Wd (w_ctx w) (EvSign kid p r out :: w_tr w))) ->
  sat Any (call_sign kid p n) w Q.
Proof. intros. unfold call_sign, out_ok. prs. apply H; lia. Qed.
Lemma sy_verify : forall kid p s w (Q : Z -> world -> Prop),
  (forall r, Q r (Wd (w_ctx w) (EvVerify kid p s r :: w_tr w))) -> sat Any (call_verify kid p s) w Q.
Proof. intros. unfold call_verify. prs. apply H. Qed.
Lemma sy_extract : forall kid p n w (Q : Z * bytes -> world -> Prop),
  (forall r out, zlen out <= n -> Q (r, out) (Wd (w_ctx w) (EvExtract kid p r out :: w_tr w))) ->
  sat Any (call_extract kid p n) w Q.
Proof. intros. unfold call_extract, out_ok. prs. apply H; lia. Qed.
Lemma sy_expand : forall kid p n w (Q : Z * bytes -> world -> Prop),
  (forall r out, zlen out <= n -> Q (r, out) (Wd (w_ctx w) (EvExpand kid p n r out :: w_tr w))) ->
  sat Any (call_expand kid p n) w Q.
Proof. intros. unfold call_expand, out_ok. prs. apply H; lia. Qed.
Lemma sy_encrypt : forall kid a b c n w (Q : Z * bytes -> world -> Prop),
  (forall r out, zlen out <= n -> Q (r, out) (Wd (w_ctx w) (EvEncrypt kid a b c r out :: w_tr w))) ->
  sat Any (call_encrypt kid a b c n) w Q.
Proof. intros. unfold call_encrypt, out_ok. prs. apply H; lia. Qed.
Lemma sy_decrypt : forall kid a b c n w (Q : Z * bytes -> world -> Prop),
  (forall r out, zlen out <= n -> Q (r, out) (Wd (w_ctx w) (EvDecrypt kid a b c r out :: w_tr w))) ->
  sat Any (call_decrypt kid a b c n) w Q.
Proof. intros. unfold call_decrypt, out_ok. prs. apply H; lia. Qed.
Lemma sy_hash : forall x n w (Q : Z * bytes -> world -> Prop),
  (forall r out, zlen out <= n -> Q (r, out) (Wd (w_ctx w) (EvHash x n r out :: w_tr w))) ->
  sat Any (call_hash x n) w Q.
Proof. intros. unfold call_hash, out_ok. prs. apply H; lia. Qed.
Lemma sy_fetch : forall w (Q : Z * creds -> world -> Prop),
  (forall r cr, Q (r, cr) (Wd (w_ctx w) (EvFetch r cr :: w_tr w))) -> sat Any call_fetch w Q.
Proof. intros. unfold call_fetch. prs. apply H. Qed.
Lemma sy_cverify : forall cr w (Q : Z * creds * bytes -> world -> Prop),
  (forall r cr' pub, Q (r, cr', pub) (Wd (w_ctx w) (EvCredVerify cr r cr' pub :: w_tr w))) ->
  sat Any (call_cverify cr) w Q.
Proof. intros. unfold call_cverify. prs. apply H. Qed.
Lemma sy_compose : forall f m n w (Q : Z * list token -> world -> Prop),
  (forall r l, Q (r, l) (Wd (w_ctx w) (EvEadCompose m r l :: w_tr w))) -> sat Any (call_compose f m n) w Q.
Proof. intros. unfold call_compose. prs. apply H. Qed.
Lemma sy_process : forall f m l w (Q : Z -> world -> Prop),
  (forall r, Q r (Wd (w_ctx w) (EvEadProcess m l r :: w_tr w))) -> sat Any (call_process f m l) w Q.
Proof. intros. unfold call_process. prs. apply H. Qed.

Lemma sy_rd : forall cap n l w (Q : bytes -> world -> Prop),
  (n <= cap -> Q (arr_read n l) w) -> sat Any (rd cap n l) w Q.
Proof. intros. unfold rd. prs. apply H; lia. Qed.
Lemma sy_get_suite : forall w (Q : csuite -> world -> Prop),
  (c_csuite_idx (w_ctx w) < cf_max_suites -> Q (the_suite (w_ctx w)) w) -> sat Any get_suite w Q.
Proof. intros. unfold get_suite. prs. apply H; lia. Qed.
Lemma sy_get_th : forall w (Q : bytes -> world -> Prop),
  (c_th_len (w_ctx w) <= cf_max_mac -> Q (th_of (w_ctx w)) w) -> sat Any get_th w Q.
Proof. intros. unfold get_th. prs. now apply sy_rd. Qed.
Lemma sy_get_prk : forall w (Q : bytes -> world -> Prop),
  (c_prk_len (w_ctx w) <= cf_max_mac -> Q (prk_of (w_ctx w)) w) -> sat Any get_prk w Q.
Proof. intros. unfold get_prk. prs. now apply sy_rd. Qed.
Lemma sy_get_dh_pub : forall w (Q : bytes -> world -> Prop),
  (c_dh_pub_len (w_ctx w) <= cf_max_ecc -> Q (pub_of (w_ctx w)) w) -> sat Any get_dh_pub w Q.
Proof. intros. unfold get_dh_pub. prs. now apply sy_rd. Qed.
Lemma sy_get_dh_priv : forall w (Q : bytes -> world -> Prop),
  (c_dh_priv_len (w_ctx w) <= cf_max_ecc -> Q (priv_of (w_ctx w)) w) -> sat Any get_dh_priv w Q.
Proof. intros. unfold get_dh_priv. prs. now apply sy_rd. Qed.
Lemma sy_get_dh_peer : forall w (Q : bytes -> world -> Prop),
  (c_dh_peer_len (w_ctx w) <= cf_max_ecc -> Q (peer_of (w_ctx w)) w) -> sat Any get_dh_peer w Q.
Proof. intros. unfold get_dh_peer. prs. now apply sy_rd. Qed.
Lemma sy_get_dh_secret : forall w (Q : bytes -> world -> Prop),
  (c_dh_secret_len (w_ctx w) <= cf_max_ecc ->
   Q (arr_read (c_dh_secret_len (w_ctx w)) (c_dh_secret (w_ctx w))) w) -> sat Any get_dh_secret w Q.
Proof. intros. unfold get_dh_secret. prs. now apply sy_rd. Qed.
Lemma sy_put_th : forall o w (Q : unit -> world -> Prop), (zlen o <= cf_max_mac ->
  Q tt (Wd (set_th (blit (c_th (w_ctx w)) o) (w_ctx w)) (w_tr w))) -> sat Any (put_th o) w Q.
Proof. intros. unfold put_th, wr. prs. apply H; lia. Qed.
Lemma sy_put_prk : forall o w (Q : unit -> world -> Prop), (zlen o <= cf_max_mac ->
  Q tt (Wd (set_prk (blit (c_prk (w_ctx w)) o) (w_ctx w)) (w_tr w))) -> sat Any (put_prk o) w Q.
Proof. intros. unfold put_prk, wr. prs. apply H; lia. Qed.
Lemma sy_put_dh_pub : forall o w (Q : unit -> world -> Prop), (zlen o <= cf_max_ecc ->
  Q tt (Wd (set_dh_pub (blit (c_dh_pub (w_ctx w)) o) (w_ctx w)) (w_tr w))) -> sat Any (put_dh_pub o) w Q.
Proof. intros. unfold put_dh_pub, wr. prs. apply H; lia. Qed.
Lemma sy_put_dh_priv : forall o w (Q : unit -> world -> Prop), (zlen o <= cf_max_ecc ->
  Q tt (Wd (set_dh_priv (blit (c_dh_priv (w_ctx w)) o) (w_ctx w)) (w_tr w))) -> sat Any (put_dh_priv o) w Q.
Proof. intros. unfold put_dh_priv, wr. prs. apply H; lia. Qed.
Lemma sy_put_dh_peer : forall o w (Q : unit -> world -> Prop), (zlen o <= cf_max_ecc ->
  Q tt (Wd (set_dh_peer (blit (c_dh_peer (w_ctx w)) o) (w_ctx w)) (w_tr w))) -> sat Any (put_dh_peer o) w Q.
Proof. intros. unfold put_dh_peer, wr. prs. apply H; lia. Qed.
Lemma sy_put_dh_secret : forall o w (Q : unit -> world -> Prop), (zlen o <= cf_max_ecc ->
  Q tt (Wd (set_dh_secret (blit (c_dh_secret (w_ctx w)) o) (w_ctx w)) (w_tr w))) -> sat Any (put_dh_secret o) w Q.
Proof. intros. unfold put_dh_secret, wr. prs. apply H; lia. Qed.

(** Error exits. *)
Lemma sy_fail : forall l r w (P : Z * bytes -> world -> Prop),
  r <> OK -> sat Any (fail l r) w (fun x w' => fst x = OK -> P x w').
Proof.
  intros l r w P H. unfold fail. revert w. induction l as [|b l IH]; intro w; cbn [frees].
  - apply sat_bind, sat_ret, sat_ret. intro X. contradiction.
  - apply sat_bind, sat_bind, sy_free. specialize (IH (Wd (w_ctx w) (EvFree b :: w_tr w))).
    unfold sat, bind in IH |- *. destruct (frees l _); exact IH.
Qed.
Lemma sy_failp : forall l r w (P : Z -> world -> Prop),
  r <> OK -> sat Any (failp l r) w (fun x w' => x = OK -> P x w').
Proof.
  intros l r w P H. unfold failp. revert w. induction l as [|b l IH]; intro w; cbn [frees].
  - apply sat_bind, sat_ret, sat_ret. intro X. contradiction.
  - apply sat_bind, sat_bind, sy_free. specialize (IH (Wd (w_ctx w) (EvFree b :: w_tr w))).
    unfold sat, bind in IH |- *. destruct (frees l _); exact IH.
Qed.
End Rules.

Ltac notok := first [ discriminate | solve [let X := fresh in intro X; discriminate X]
  | match goal with H : (?r =? OK) = false |- ?r <> OK => now apply Z.eqb_neq end
  | match goal with H : (?r =? OK) = false |- _ => let X := fresh in intro X; apply Z.eqb_neq in H; exfalso; apply H; exact X end ].
Ltac deadend :=
  lazymatch goal with
  | |- sat _ (fail _ _) _ _ => apply sy_fail; notok
  | |- sat _ (failp _ _) _ _ => apply sy_failp; notok
  | |- sat _ (ret _) _ _ => apply sat_ret; cbn [fst snd]; let X := fresh in intro X; exfalso;
        first [ discriminate X
              | match goal with H : (?r =? OK) = false |- _ => apply Z.eqb_neq in H; apply H; exact X end ]
  | |- sat _ (bind (free _) _) _ _ => apply sat_bind, sy_free; deadend
  | |- sat _ (bind (modify _) _) _ _ => apply sat_bind, sat_modify; deadend
  end.
(** One step along the successful path. *)
Ltac sy :=
  lazymatch goal with
  | |- sat _ (bind _ _) _ _ => apply sat_bind
  | |- sat _ (let _ := _ in _) _ _ => cbv zeta
  | |- sat _ (if negb ?b then _ else _) _ _ =>
      let X := fresh "X" in destruct b eqn:X; cbn [negb]; [|solve [deadend]]
  | |- sat _ (ret _) _ (fun a w => sat _ _ _ _) => apply sat_ret; cbv beta iota
  | |- sat _ getc _ _ => apply sat_getc; cbn [w_ctx w_tr]
  | |- sat _ (modify _) _ _ => apply sat_modify; cbn [w_ctx w_tr]
  | |- sat _ (check _ _) _ _ => apply sy_check; intro
  | |- sat _ (need _ _) _ _ => apply sy_need; intros ? ?
  | |- sat _ (alloc _ _) _ _ => apply sy_alloc; intro; cbn [w_ctx w_tr]
  | |- sat _ (free _) _ _ => apply sy_free; cbn [w_ctx w_tr]
  | |- sat _ (frees _) _ _ => cbn [frees]
  | |- sat _ (call_import _ _) _ _ => apply sy_import; intros; cbn [w_ctx w_tr]
  | |- sat _ (call_destroy _) _ _ => apply sy_destroy; intros; cbn [w_ctx w_tr]
  | |- sat _ (call_mkpair _ _ _) _ _ => apply sy_mkpair; intros; cbn [w_ctx w_tr]
  | |- sat _ (call_agree _ _ _) _ _ => apply sy_agree; intros; cbn [w_ctx w_tr]
  | |- sat _ (call_sign _ _ _) _ _ => apply sy_sign; intros; cbn [w_ctx w_tr]
  | |- sat _ (call_verify _ _ _) _ _ => apply sy_verify; intros; cbn [w_ctx w_tr]
  | |- sat _ (call_extract _ _ _) _ _ => apply sy_extract; intros; cbn [w_ctx w_tr]
  | |- sat _ (call_expand _ _ _) _ _ => apply sy_expand; intros; cbn [w_ctx w_tr]
  | |- sat _ (call_encrypt _ _ _ _ _) _ _ => apply sy_encrypt; intros; cbn [w_ctx w_tr]
  | |- sat _ (call_decrypt _ _ _ _ _) _ _ => apply sy_decrypt; intros; cbn [w_ctx w_tr]
  | |- sat _ (call_hash _ _) _ _ => apply sy_hash; intros; cbn [w_ctx w_tr]
  | |- sat _ call_fetch _ _ => apply sy_fetch; intros; cbn [w_ctx w_tr]
  | |- sat _ (call_cverify _) _ _ => apply sy_cverify; intros; cbn [w_ctx w_tr]
  | |- sat _ (call_compose _ _ _) _ _ => apply sy_compose; intros; cbn [w_ctx w_tr]
  | |- sat _ (call_process _ _ _) _ _ => apply sy_process; intros; cbn [w_ctx w_tr]
  | |- sat _ get_suite _ _ => apply sy_get_suite; intro; cbn [w_ctx w_tr]
  | |- sat _ get_th _ _ => apply sy_get_th; intro; cbn [w_ctx w_tr]
  | |- sat _ get_prk _ _ => apply sy_get_prk; intro; cbn [w_ctx w_tr]
  | |- sat _ get_dh_pub _ _ => apply sy_get_dh_pub; intro; cbn [w_ctx w_tr]
  | |- sat _ get_dh_priv _ _ => apply sy_get_dh_priv; intro; cbn [w_ctx w_tr]
  | |- sat _ get_dh_peer _ _ => apply sy_get_dh_peer; intro; cbn [w_ctx w_tr]
  | |- sat _ get_dh_secret _ _ => apply sy_get_dh_secret; intro; cbn [w_ctx w_tr]
  | |- sat _ (put_th _) _ _ => apply sy_put_th; intro; cbn [w_ctx w_tr]
  | |- sat _ (put_prk _) _ _ => apply sy_put_prk; intro; cbn [w_ctx w_tr]
  | |- sat _ (put_dh_pub _) _ _ => apply sy_put_dh_pub; intro; cbn [w_ctx w_tr]
  | |- sat _ (put_dh_priv _) _ _ => apply sy_put_dh_priv; intro; cbn [w_ctx w_tr]
  | |- sat _ (put_dh_peer _) _ _ => apply sy_put_dh_peer; intro; cbn [w_ctx w_tr]
  | |- sat _ (put_dh_secret _) _ _ => apply sy_put_dh_secret; intro; cbn [w_ctx w_tr]
  | |- sat _ (if ?b then _ else _) _ _ =>
      let X := fresh "X" in destruct b eqn:X; first [ solve [deadend] | idtac ]
  | |- sat _ (match ?x with _ => _ end) _ _ =>
      let X := fresh "X" in destruct x eqn:X; first [ solve [deadend] | idtac ]
  end.
Ltac okz := repeat match goal with H : (?r =? OK) = true |- _ => apply Z.eqb_eq in H; try subst r end.
(** Use a helper lemma [L : sat Any m w (fun r w' => ok r -> ...)]. *)
Ltac by_lemma L := eapply sat_conseq; [apply L|]; cbv beta; intros.
(** A trace of the form [e :: t ++ ... ++ t0] as [T ++ t0]. *)
Ltac trace_ext := rewrite ?app_comm_cons; repeat (rewrite app_assoc; rewrite ?app_comm_cons);
  first [reflexivity | match goal with |- ?e :: ?t = ?x => apply (eq_refl : e :: t = [e] ++ t) end ].
(** A key imported and used at once. *)
Lemma with_key_cons : forall x t e kid kt key, with_key t e kid kt key -> with_key (x :: t) e kid kt key.
Proof. intros. now apply (with_key_l t [x]). Qed.
Ltac keyed :=
  first [ exists []; eexists; split; [reflexivity|]; cbn [key_of]; rewrite ?beqb_refl; reflexivity
        | apply with_key_cons; keyed ].

(** Read a field of an updated context. *)
Tactic Notation "cs" := cbn [w_ctx w_tr fst snd set_chosen_method set_methods set_method_len
  set_csuite_idx set_csuites set_csuite_len set_peer_csuites set_peer_csuite_len set_cid
  set_peer_cid set_dh_pub set_dh_pub_len set_dh_priv set_dh_priv_len set_dh_peer set_dh_peer_len
  set_dh_secret set_dh_secret_len set_is_init set_oscore_ok set_status set_message set_role
  set_th_state set_th set_th_len set_prk_state set_prk set_prk_len set_ead set_keys set_crypto
  set_cred set_tokens set_user set_error c_chosen_method c_methods c_method_len c_csuite_idx
  c_csuites c_csuite_len c_peer_csuites c_peer_csuite_len c_cid c_peer_cid c_dh_pub c_dh_pub_len
  c_dh_priv c_dh_priv_len c_dh_peer c_dh_peer_len c_dh_secret c_dh_secret_len c_is_init
  c_oscore_ok c_status c_message c_role c_th_state c_th c_th_len c_prk_state c_prk c_prk_len
  c_ead c_keys c_crypto c_cred c_tokens c_user c_error].
Tactic Notation "cs" "in" hyp(H) := cbn [w_ctx w_tr fst snd set_chosen_method set_methods
  set_method_len set_csuite_idx set_csuites set_csuite_len set_peer_csuites set_peer_csuite_len
  set_cid set_peer_cid set_dh_pub set_dh_pub_len set_dh_priv set_dh_priv_len set_dh_peer
  set_dh_peer_len set_dh_secret set_dh_secret_len set_is_init set_oscore_ok set_status
  set_message set_role set_th_state set_th set_th_len set_prk_state set_prk set_prk_len set_ead
  set_keys set_crypto set_cred set_tokens set_user set_error c_chosen_method c_methods
  c_method_len c_csuite_idx c_csuites c_csuite_len c_peer_csuites c_peer_csuite_len c_cid
  c_peer_cid c_dh_pub c_dh_pub_len c_dh_priv c_dh_priv_len c_dh_peer c_dh_peer_len c_dh_secret
  c_dh_secret_len c_is_init c_oscore_ok c_status c_message c_role c_th_state c_th c_th_len
  c_prk_state c_prk c_prk_len c_ead c_keys c_crypto c_cred c_tokens c_user c_error] in H.
Ltac csall := cbn [w_ctx w_tr fst snd set_chosen_method set_methods set_method_len
  set_csuite_idx set_csuites set_csuite_len set_peer_csuites set_peer_csuite_len set_cid
  set_peer_cid set_dh_pub set_dh_pub_len set_dh_priv set_dh_priv_len set_dh_peer set_dh_peer_len
  set_dh_secret set_dh_secret_len set_is_init set_oscore_ok set_status set_message set_role
  set_th_state set_th set_th_len set_prk_state set_prk set_prk_len set_ead set_keys set_crypto
  set_cred set_tokens set_user set_error c_chosen_method c_methods c_method_len c_csuite_idx
  c_csuites c_csuite_len c_peer_csuites c_peer_csuite_len c_cid c_peer_cid c_dh_pub c_dh_pub_len
  c_dh_priv c_dh_priv_len c_dh_peer c_dh_peer_len c_dh_secret c_dh_secret_len c_is_init
  c_oscore_ok c_status c_message c_role c_th_state c_th c_th_len c_prk_state c_prk c_prk_len
  c_ead c_keys c_crypto c_cred c_tokens c_user c_error] in *.

(** Solve [Wd c L = Wd ?c (?t ++ t0)] where [L] ends in [t0]. *)
Ltac strip L t :=
  lazymatch L with
  | t => constr:(@nil event)
  | ?e :: ?r => let x := strip r t in constr:(e :: x)
  | ?a ++ ?r => let x := strip r t in constr:(a ++ x)
  end.
Ltac trx :=
  lazymatch goal with
  | |- Wd ?C ?L = Wd ?C' (?T ++ ?t) =>
      let x := strip L t in unify T x; repeat (rewrite <- app_assoc || cbn [app]); reflexivity
  | |- ?L = ?T ++ ?t =>
      let x := strip L t in unify T x; repeat (rewrite <- app_assoc || cbn [app]); reflexivity
  end.
Ltac bools := repeat match goal with
  | H : (_ || _) = false |- _ => apply orb_false_iff in H as [? ?]
  | H : (_ && _) = true |- _ => apply andb_true_iff in H as [? ?]
  | H : negb _ = false |- _ => apply negb_false_iff in H
  | H : negb _ = true |- _ => apply negb_true_iff in H
  | H : (_ =? _) = true |- _ => apply Z.eqb_eq in H
  | H : (_ =? _) = false |- _ => apply Z.eqb_neq in H
  end; repeat match goal with H : ?r = OK |- _ => is_var r; subst r end.
(** End of a successful path. *)
Ltac fin := apply sat_ret; csall; intros _; bools.

(** What the size of the caller's buffer changes.  No code of /repo is modelled here. *)
From Verif Require Import Monad Cbor CborGen Common Msg1 Msg2 Msg3 Msg4 Exporter History Spec Logic Frame CborProofs MemProofs.

(** [m'] in place of [m], when [m] succeeded with a message and there is room for [n] bytes. *)
Definition room (off : bool) (n : Z) (m m' : M (Z * bytes)) : Prop :=
  forall w msg w', m w = Ret (OK, msg) w' ->
    (zlen msg <= n -> m' w = Ret (OK, msg) w') /\
    (n < zlen msg -> (exists w'', m' w = Ret (E_CBOR, []) w'') \/ (off = true /\ n = zlen msg - 1 /\ m' w = Ub UbMsg3Write)).
Definition nok (m : M (Z * bytes)) : Prop := forall w a w', m w = Ret a w' -> fst a <> OK.
Lemma nok_room : forall off n m m', nok m -> room off n m m'.
Proof. intros off n m m' H w msg w' X. exfalso. exact (H _ _ _ X eq_refl). Qed.
Lemma bind_room : forall off n A (m : M A) k k', (forall a, room off n (k a) (k' a)) -> room off n (bind m k) (bind m k').
Proof. intros off n A m k k' H w msg w' X. unfold bind in *. destruct (m w) as [a w1|]; [|discriminate X]. exact (H _ _ _ _ X). Qed.
Lemma ret_nok : forall r x, r <> OK -> nok (ret (r, x)). Proof. intros r x H w a w' [= <- _]. exact H. Qed.
Lemma bind_nok : forall A (m : M A) k, (forall a, nok (k a)) -> nok (bind m k).
Proof. intros A m k H w a w' X. unfold bind in X. destruct (m w) as [b w1|]; [|discriminate X]. exact (H _ _ _ _ X). Qed.
Lemma fail_nok : forall l r, r <> OK -> nok (fail l r). Proof. intros l r H. unfold fail. apply bind_nok. intros _. now apply ret_nok. Qed.
Ltac r_step :=
  lazymatch goal with
  | |- room _ _ (ret (_, [])) _ => apply nok_room, ret_nok; first [discriminate|lia]
  | |- room _ _ (fail _ _) _ => apply nok_room, fail_nok; first [discriminate|lia]
  | |- room _ _ (bind _ (fun _ => ret (_, []))) _ => apply nok_room, bind_nok; intro; apply ret_nok; first [discriminate|lia]
  | |- room _ _ (if ?b then _ else _) (if ?b then _ else _) => let X := fresh "G" in destruct b eqn:X
  | |- room _ _ (match ?x with _ => _ end) (match ?x with _ => _ end) => let X := fresh "G" in destruct x eqn:X
  | |- room _ _ (let _ := _ in _) _ => cbv zeta
  | |- room _ _ (bind ?m _) (bind ?m _) => apply bind_room; intro
  end.
Ltac r_auto := repeat r_step.
Ltac o_red := try match goal with X : _ = Ret (OK, _) _ |- _ => change (negb (OK =? OK)) with false in X; change (negb (E_CBOR =? OK)) with true in X; change (negb (E_INVALID_ARG =? OK)) with true in X; cbv iota beta in X end.
Ltac g_red := change (negb (OK =? OK)) with false; change (negb (E_CBOR =? OK)) with true; cbv iota beta.
Section Room.
Context {E : env}.
Lemma start_room : forall off n n' (nn : bool) m m', n' <> 0 -> room off n' m m' ->
  room off n' (if negb nn || (n =? 0) then ret (E_INVALID_ARG, []) else m) (if negb nn || (n' =? 0) then ret (E_INVALID_ARG, []) else m').
Proof.
  intros off n n' nn m m' Hn H. destruct nn; cbn [negb orb]; [|r_auto]. replace (n' =? 0) with false by (symmetry; now apply Z.eqb_neq).
  destruct (n =? 0); [apply nok_room, ret_nok; discriminate|exact H].
Qed.
Lemma bad_cbor : E_CBOR <> OK. Proof. discriminate. Qed.
Lemma nofail : forall l r w msg w' (P : Prop), r <> OK -> fail l r w = Ret (OK, msg) w' -> P.
Proof. intros l r w msg w' P H X. exact (False_ind _ (fail_nok _ _ H _ _ _ X eq_refl)). Qed.
Lemma m2_room : forall nn n n', n' <> 0 -> room false n' (message_2_compose nn n) (message_2_compose nn n').
Proof.
  intros nn n n' Hn. unfold message_2_compose. apply start_room; [exact Hn|]. r_auto.
  unfold prepare_message_2. replace (n' =? 0) with false by (symmetry; now apply Z.eqb_neq). rewrite orb_false_r.
  intros w msg w' X. unfold bind at 1 in X. unfold bind at 1.
  destruct (zlen _ =? 0); cbn [orb] in X; [cbv [ret] in X; exact (nofail _ _ _ _ _ _ bad_cbor X)|].
  destruct (n =? 0); [cbv [ret] in X; exact (nofail _ _ _ _ _ _ bad_cbor X)|].
  unfold bind in X. unfold bind. unfold getc in *. destruct (alloc _ _ w) as [ok w1|]; [|discriminate X].
  destruct (negb ok); [cbv [ret] in X; exact (nofail _ _ _ _ _ _ bad_cbor X)|].
  destruct (get_dh_pub w1) as [p w2|]; [|discriminate X]. destruct (free BMsg w2) as [u w3|]; [|discriminate X].
  unfold fits in *. destruct (_ <=? n); unfold ret in X; o_red; [|exact (nofail _ _ _ _ _ _ bad_cbor X)].
  destruct (free BPlaintext w3) as [u' w4|] eqn:F; [|discriminate X]. unfold modify in X. injection X as <- <-. split; intro H.
  - replace (_ <=? n') with true by (symmetry; apply Z.leb_le; lia). unfold ret. g_red. rewrite F. reflexivity.
  - left. replace (_ <=? n') with false by (symmetry; apply Z.leb_gt; lia). unfold ret. g_red. unfold fail, frees, bind. rewrite F. now exists w4.
Qed.
Lemma m3_room : forall nn n n', n' <> 0 -> room true n' (message_3_compose nn n) (message_3_compose nn n').
Proof.
  intros nn n n' Hn. unfold message_3_compose. apply start_room; [exact Hn|]. r_auto.
  unfold gen_msg_3. replace (n' =? 0) with false by (symmetry; now apply Z.eqb_neq). rewrite orb_false_r.
  intros w msg w' X. unfold bind at 1 in X. unfold bind at 1.
  destruct (zlen _ =? 0); cbn [orb] in X; [unfold bind, ret in X; o_red; destruct (free _ _); discriminate X|].
  destruct (n =? 0); [unfold bind, ret in X; o_red; destruct (free _ _); discriminate X|].
  unfold fits in *. destruct (_ <=? n + 1); [|unfold bind, ret in X; o_red; destruct (free _ _); discriminate X].
  unfold check, bind, ret in X. destruct (_ <=? n); o_red; [|discriminate X]. destruct (free BCiphertext w) as [u w1|] eqn:F; [|discriminate X].
  unfold modify in X. injection X as <- <-. split; intro H.
  - replace (_ <=? n' + 1) with true by (symmetry; apply Z.leb_le; lia). unfold check. replace (_ <=? n') with true by (symmetry; apply Z.leb_le; lia).
    unfold bind, ret. g_red. rewrite F. reflexivity.
  - destruct (_ <=? n' + 1) eqn:Q; [apply Z.leb_le in Q; right; split; [reflexivity|]; split; [lia|]|left].
    + unfold check. replace (_ <=? n') with false by (symmetry; apply Z.leb_gt; lia). reflexivity.
    + unfold bind, ret. g_red. rewrite F. now exists w1.
Qed.
Lemma m4_room : forall nn n n', n' <> 0 -> room false n' (message_4_compose nn n) (message_4_compose nn n').
Proof.
  intros nn n n' Hn. unfold message_4_compose. apply start_room; [exact Hn|]. r_auto.
  unfold gen_msg_4. replace (n' =? 0) with false by (symmetry; now apply Z.eqb_neq). rewrite orb_false_r.
  intros w msg w' X. destruct (zlen _ =? 0); cbn [orb] in X; [exact (nofail _ _ _ _ _ _ bad_cbor X)|].
  destruct (n =? 0); [exact (nofail _ _ _ _ _ _ bad_cbor X)|]. unfold fits in *. destruct (_ <=? n); [|exact (nofail _ _ _ _ _ _ bad_cbor X)].
  unfold bind in X. o_red. destruct (free BCiphertext w) as [u w1|] eqn:F; [|discriminate X]. unfold modify, ret in X. injection X as <- <-. split; intro H.
  - replace (_ <=? n') with true by (symmetry; apply Z.leb_le; lia). unfold bind. g_red. rewrite F. reflexivity.
  - left. replace (_ <=? n') with false by (symmetry; apply Z.leb_gt; lia). g_red. unfold fail, frees, bind. rewrite F. now exists w1.
Qed.
Lemma head_small : forall m v, v < 24 -> zlen (enc_head m v) = 1.
Proof. intros m v H. unfold enc_head. replace (v <? 24) with true by (symmetry; apply Z.ltb_lt; lia). reflexivity. Qed.
Lemma read_size : forall p l w items w', read_toks p l w = Ret items w' -> w' = w /\ zlen items = zlen l /\ zsum (map (tok_size p) l) <= zlen (concat (map enc_ead_item items)).
Proof.
  intros p l. induction l as [|t l IH]; intros w items w' H; cbn [read_toks] in H.
  - injection H as <- <-. repeat split; reflexivity || lia.
  - unfold bind in H at 1. match type of H with match ?m w with _ => _ end = _ => destruct (m w) as [v w1|] eqn:V; [|discriminate H] end. unfold bind in H. destruct (read_toks p l w1) as [r w2|] eqn:R; [|discriminate H].
    injection H as <- <-. destruct (IH _ _ _ R) as (-> & L1 & L2).
    assert (Q : w1 = w /\ tok_size p t <= zlen (enc_ead_item (tk_label t, v))).
    { unfold tok_size, enc_ead_item. cbn [fst snd]. rewrite zlen_app. destruct (p t).
      - unfold bind, rd_tok in V. destruct (zs_len (tk_val t) <=? 0) eqn:Z0.
        + injection V as <- <-. split; [reflexivity|]. apply Z.leb_le in Z0. rewrite head_small by lia. cbn [enc_bstr]. change (zlen (enc_bstr [])) with 1. lia.
        + destruct (zs_ptr (tk_val t)) as [b|]; [|discriminate V]. unfold check in V. destruct (_ <=? zlen b) eqn:Z1; [|discriminate V]. injection V as <- <-.
          split; [reflexivity|]. unfold enc_bstr. rewrite zlen_app. apply Z.leb_le in Z1. apply Z.leb_gt in Z0. rewrite zlen_take by lia. lia.
      - injection V as <- <-. split; [reflexivity|]. change (zlen (@nil Z)) with 0. lia. }
    destruct Q as [-> Q]. split; [reflexivity|]. split; [rewrite (zlen_cons _ (_ : ead_item)), (zlen_cons _ t); lia|]. cbn [map concat zsum fold_right]. rewrite zlen_app. unfold zsum in *. cbn [fold_right] in *. lia.
Qed.
Lemma encode_room : forall p cap l w eb w', encode_tokens p cap l w = Ret (Some eb) w' -> w' = w /\
  exists z, z <= zlen eb /\ forall cap', encode_tokens p cap' l w = Ret (if cap' <? z then None else Some eb) w.
Proof.
  intros p cap l w eb w' H. unfold encode_tokens in *. unfold check in *. destruct (zlen l <=? 3); [|discriminate H]. unfold bind, ret in H. unfold bind, ret.
  destruct (zlen l =? 0); [discriminate H|]. destruct (cap <? _); [discriminate H|]. destruct (read_toks p l w) as [items w1|] eqn:R; [|discriminate H].
  injection H as H <-. destruct (read_size _ _ _ _ _ R) as (-> & L1 & L2). split; [reflexivity|]. exists (zsum (map (tok_size p) l)). split.
  - unfold enc_ead in H. destruct (_ && _); [|discriminate H]. injection H as <-. exact L2.
  - intro cap'. destruct (cap' <? _); [reflexivity|]. rewrite R, H. reflexivity.
Qed.
Lemma m1_room : forall nn n n', n' <> 0 -> room false n' (message_1_compose nn n) (message_1_compose nn n').
Proof.
  intros nn n n' Hn. unfold message_1_compose. apply start_room; [exact Hn|]. r_auto.
  match goal with |- context [enc_message_1 ?a ?b ?c ?d ?e] => destruct (enc_message_1 a b c d e) as [pre|] end; [|intros w msg w' X; unfold bind, ret in X; destruct (free BDhPub w); discriminate X].
  intros w msg w' X. unfold bind at 1 in X. unfold bind at 1.
  match type of X with match ?m w with _ => _ end = _ => assert (Q : forall mb w1, m w = Ret (Some mb) w1 -> w1 = w /\
    (if zlen (c_tokens a11) =? 0 then ret (fits n' pre) else e <- encode_tokens (fun _ => true) (n' - zlen pre) (c_tokens a11) ;; ret (match e with Some eb => fits n' (pre ++ eb) | None => None end)) w
      = Ret (if zlen mb <=? n' then Some mb else None) w) end.
  { intros mb w1 Y. destruct (zlen (c_tokens a11) =? 0).
    - unfold ret in *. injection Y as Y <-. apply fits_le in Y as [-> _]. split; [reflexivity|]. reflexivity.
    - unfold bind in Y. destruct (encode_tokens _ _ _ w) as [[eb|] w2|] eqn:T; [| |discriminate Y].
      + unfold ret in Y. injection Y as Y ->. apply fits_le in Y as [-> _]. destruct (encode_room _ _ _ _ _ _ T) as (-> & zz & Z1 & Z2). split; [reflexivity|].
        unfold bind. rewrite Z2. rewrite zlen_app. destruct (n' - zlen pre <? zz) eqn:C; unfold ret.
        * apply Z.ltb_lt in C. replace (_ <=? n') with false by (symmetry; apply Z.leb_gt; lia). reflexivity.
        * unfold fits. now rewrite zlen_app.
      + discriminate Y. }
  match type of X with match ?m w with _ => _ end = _ => destruct (m w) as [[mb|] w1|] end; [| |discriminate X].
  - destruct (Q _ _ eq_refl) as (-> & Q2). unfold bind in X. destruct (free BDhPub w) as [u w2|] eqn:F; [|discriminate X].
    destruct (hash_into_th _ mb w2) as [[rr hn] w3|] eqn:HH; [|discriminate X]. unfold ret, modify in X. match type of X with context [if ?b then _ else _] => destruct b eqn:GG9 end; [discriminate X|]. injection X as <- <-. split; intro H.
    + rewrite Q2. replace (_ <=? n') with true by (symmetry; apply Z.leb_le; lia). unfold bind. rewrite F, HH, GG9. reflexivity.
    + left. exists w2. unfold bind at 1. rewrite Q2. replace (_ <=? n') with false by (symmetry; apply Z.leb_gt; lia). unfold bind. rewrite F. reflexivity.
  - unfold bind in X. destruct (free BDhPub w1); discriminate X.
Qed.

Lemma oscore_room : forall i n n' x, oscore_id i n = (OK, x) -> zlen x <= n' -> oscore_id i n' = (OK, x).
Proof.
  intros i n n' x. unfold oscore_id, fits. destruct (_ =? CID_INT).
  - destruct (_ <=? n); [|discriminate]. intros [= <-] H. now replace (_ <=? n') with true by (symmetry; apply Z.leb_le; lia).
  - destruct (_ =? CID_BSTR); [|discriminate]. destruct (n <? _); [discriminate|]. intros [= <-] H. now replace (n' <? _) with false by (symmetry; apply Z.ltb_ge; lia).
Qed.
Lemma oscore_same : forall nn n1 n2 n3 n4 n3' n4' w o w', export_oscore_session nn n1 n2 n3 n4 w = Ret (OK, o) w' ->
  n3' <> 0 -> n4' <> 0 -> zlen (os_sid o) <= n3' -> zlen (os_rid o) <= n4' -> export_oscore_session nn n1 n2 n3' n4' w = Ret (OK, o) w'.
Proof.
  intros nn n1 n2 n3 n4 n3' n4' w o w' X H3 H4 L3 L4. unfold export_oscore_session in *. apply Z.eqb_neq in H3, H4. rewrite H3, H4, !orb_false_r.
  destruct (negb nn || (n1 =? 0) || (n2 =? 0)); [discriminate X|]. destruct (n3 =? 0); [discriminate X|]. destruct (n4 =? 0); [discriminate X|]. cbn [orb] in *.
  unfold bind in *. unfold getc in *. destruct (negb (c_oscore_ok _)); [discriminate X|]. destruct (_ || _); [discriminate X|]. unfold modify in *.
  destruct (export_prk_exporter true 0 n1 _) as [[r sec] w1|]; [|discriminate X]. destruct (negb (r =? OK)); [discriminate X|].
  destruct (export_prk_exporter true 1 n2 w1) as [[r2 salt] w2|]; [|discriminate X]. destruct (negb (r2 =? OK)); [discriminate X|].
  destruct (oscore_id (c_peer_cid _) n3) as [r3 sid] eqn:O3. destruct (r3 =? OK) eqn:R3; cbn [negb] in X; [|injection X as X _ _; subst; discriminate R3].
  destruct (oscore_id (c_cid _) n4) as [r4 rid] eqn:O4. destruct (r4 =? OK) eqn:R4; cbn [negb] in X; [|injection X as X _ _; subst; discriminate R4].
  apply Z.eqb_eq in R3, R4. subst r3 r4. unfold ret in X. injection X as <- <-. cbn [os_sid os_rid] in *.
  rewrite (oscore_room _ _ _ _ O3 L3), (oscore_room _ _ _ _ O4 L4). reflexivity.
Qed.

Lemma size_same : forall f n n' w msg w', In f [AM1Compose true; AM2Compose true; AM3Compose true; AM4Compose true] ->
  do_api (f n) w = Ret (OK, OBytes msg) w' -> n' <> 0 ->
  (zlen msg <= n' -> do_api (f n') w = Ret (OK, OBytes msg) w') /\
  (n' < zlen msg -> (exists w'', do_api (f n') w = Ret (E_CBOR, OBytes []) w'') \/
     (f = AM3Compose true /\ n' = zlen msg - 1 /\ do_api (f n') w = Ub UbMsg3Write)).
Proof.
  assert (G : forall off m m' n' w msg w', room off n' m m' -> msg_out m w = Ret (OK, OBytes msg) w' ->
    (zlen msg <= n' -> msg_out m' w = Ret (OK, OBytes msg) w') /\
    (n' < zlen msg -> (exists w'', msg_out m' w = Ret (E_CBOR, OBytes []) w'') \/ (off = true /\ n' = zlen msg - 1 /\ msg_out m' w = Ub UbMsg3Write))).
  { intros off m m' n' w msg w' R X. unfold msg_out, bind in X. destruct (m w) as [[r b] w1|] eqn:Q; [|discriminate X]. unfold ret in X. injection X as -> -> ->.
    destruct (R _ _ _ Q) as [R1 R2]. unfold msg_out, bind. split; intro H.
    - now rewrite (R1 H).
    - destruct (R2 H) as [[w2 ->]|(A & B & ->)]; [left; now exists w2|right; auto]. }
  intros f n n' w msg w' F X Hn. cbn [In] in F. destruct F as [<-|[<-|[<-|[<-|[]]]]]; cbn [do_api] in *.
  - destruct (G _ _ _ _ _ _ _ (m1_room true n n' Hn) X) as [A B]. split; [exact A|]. intro H. destruct (B H) as [C|(C & _)]; [now left|discriminate C].
  - destruct (G _ _ _ _ _ _ _ (m2_room true n n' Hn) X) as [A B]. split; [exact A|]. intro H. destruct (B H) as [C|(C & _)]; [now left|discriminate C].
  - destruct (G _ _ _ _ _ _ _ (m3_room true n n' Hn) X) as [A B]. split; [exact A|]. intro H. destruct (B H) as [C|(_ & C)]; [now left|right; now split].
  - destruct (G _ _ _ _ _ _ _ (m4_room true n n' Hn) X) as [A B]. split; [exact A|]. intro H. destruct (B H) as [C|(C & _)]; [now left|discriminate C].
Qed.
Lemma oscore_size : forall n1 n2 n3 n4 n3' n4' w o w', do_api (AOscore true n1 n2 n3 n4) w = Ret (OK, OOscore o) w' ->
  n3' <> 0 -> n4' <> 0 -> zlen (os_sid o) <= n3' -> zlen (os_rid o) <= n4' ->
  do_api (AOscore true n1 n2 n3' n4') w = Ret (OK, OOscore o) w'.
Proof.
  intros n1 n2 n3 n4 n3' n4' w o w' X H3 H4 L3 L4. cbn [do_api] in *. unfold bind in *. destruct (export_oscore_session true n1 n2 n3 n4 w) as [[r b] w1|] eqn:Q; [|discriminate X].
  unfold ret in X. injection X as -> -> ->. now rewrite (oscore_same _ _ _ _ _ n3' n4' _ _ _ Q H3 H4 L3 L4).
Qed.
End Room.

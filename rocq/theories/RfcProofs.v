(** The model's encoders produce the RFC encoding; the RFC encoding is uniquely decodable. *)
From Verif Require Import Monad Facts CborProofs Rfc.

Lemma octets_be : forall n v, octets (Z.of_nat n) v = be n v.
Proof.
  induction n as [|n IH]; intro v; [reflexivity|].
  cbn [be]. rewrite <- IH. unfold octets. rewrite !Nat2Z.id, seq_S, map_app. cbn [map Nat.add]. f_equal.
  - apply map_ext_in. intros i Hi. apply in_seq in Hi.
    rewrite Z.div_div by (try apply Z.pow_pos_nonneg; lia). f_equal. f_equal.
    rewrite <- (Z.pow_1_r 256) at 2. rewrite <- Z.pow_add_r by lia. f_equal. lia.
  - replace (Z.of_nat (S n) - 1 - Z.of_nat n) with 0 by lia. rewrite Z.pow_0_r, Z.div_1_r. reflexivity.
Qed.
Lemma enc_head_rfc : forall maj v, enc_head maj v = head maj v.
Proof.
  intros maj v. unfold enc_head, head, add_info, arg_width.
  change (2 ^ 8) with 256. change (2 ^ 16) with 65536.
  destruct (v <? 24) eqn:A.
  { cbn [octets Z.to_nat seq map]. f_equal. change (2 ^ 5) with 32. lia. }
  destruct (v <? 256) eqn:B.
  { f_equal; [change (2 ^ 5) with 32; lia|]. change 1 with (Z.of_nat 1). rewrite octets_be. cbn [be app].
    rewrite Z.mod_small by lia. reflexivity. }
  destruct (v <? 65536).
  { f_equal; [change (2 ^ 5) with 32; lia|]. now rewrite <- octets_be. }
  destruct (v <? 2 ^ 32).
  { f_equal; [change (2 ^ 5) with 32; lia|]. now rewrite <- octets_be. }
  f_equal; [change (2 ^ 5) with 32; lia|]. now rewrite <- octets_be.
Qed.

Lemma enc_int_rfc : forall v, enc_int v = cbor (Num v).
Proof. intro v. unfold enc_int. cbn [cbor]. now rewrite !enc_head_rfc. Qed.
Lemma enc_bstr_rfc : forall b, enc_bstr b = cbor (Bstr b).
Proof. intro b. unfold enc_bstr. cbn [cbor]. now rewrite enc_head_rfc. Qed.
Lemma enc_tstr_rfc : forall b, enc_tstr b = cbor (Tstr b).
Proof. intro b. unfold enc_tstr. cbn [cbor]. now rewrite enc_head_rfc. Qed.
Lemma concat_map : forall A (f : A -> bytes) (g : A -> item) l, (forall a, f a = cbor (g a)) ->
  concat (map f l) = flat_map cbor (map g l).
Proof. intros A f g l H. induction l as [|a l IH]; cbn; [reflexivity|]. now rewrite H, IH. Qed.

(** Values the encoders take, as RFC values. *)
Definition suites_list (s : suites) : list Z := match s with SuInt v => [v] | SuList l => l end.
Definition cid_of_v (c : cidv) : cid := match c with CidInt v => CNum v | CidBstr b => CBytes b end.
Definition idcred_of (i : id_cred) : idcred :=
  match i with
  | IdKid (KidInt v) => KidNum v
  | IdKid (KidBstr b) => KidBytes b
  | IdChain (ChOne b) => X5chain [b]
  | IdChain (ChList l) => X5chain l
  | IdHash (AlgInt v) fp => X5tNum v fp
  | IdHash (AlgTstr b) fp => X5tText b fp
  end.
Definition errinfo_of (i : err_info) : errinfo :=
  match i with
  | EiTstr b => InfoText b | EiSuites s => InfoSuites (suites_list s) | EiTrue => InfoTrue
  end.

Lemma enc_suites_rfc : forall s b, enc_suites s = Some b -> b = cbor (suites_item (suites_list s)).
Proof.
  intros [v|l] b H; cbn [enc_suites suites_list suites_item] in *.
  - someinv H. apply enc_int_rfc.
  - destruct ((2 <=? zlen l) && (zlen l <=? 3)) eqn:L; [|discriminate]. someinv H.
    destruct l as [|x [|y l]]; [cbn in L; lia|cbn in L; lia|].
    cbn [suites_item]. set (q := x :: y :: l) in *. cbn [cbor]. rewrite enc_head_rfc, zlen_map.
    f_equal. apply concat_map. apply enc_int_rfc.
Qed.
Lemma enc_cidv_rfc : forall c b, enc_cidv c = Some b -> b = cbor (cid_item (cid_of_v c)).
Proof.
  intros [v|x] b H; cbn [enc_cidv cid_of_v cid_item] in *.
  - destruct ((-24 <=? v) && (v <=? 23)); [|discriminate]. someinv H. apply enc_int_rfc.
  - someinv H. apply enc_bstr_rfc.
Qed.
Lemma cbor_seq_app : forall a b, cbor_seq (a ++ b) = cbor_seq a ++ cbor_seq b.
Proof. intros. unfold cbor_seq. apply flat_map_app. Qed.
Lemma cbor_seq_cons : forall a b, cbor_seq (a :: b) = cbor a ++ cbor_seq b.
Proof. reflexivity. Qed.
Lemma enc_ead_item_rfc : forall e, enc_ead_item e = cbor_seq (ead_items e).
Proof.
  intros [l [v|]]; unfold enc_ead_item, ead_items, cbor_seq; cbn [fst snd flat_map];
    rewrite enc_int_rfc, ?enc_bstr_rfc, ?app_nil_r; reflexivity.
Qed.
Lemma eads_rfc : forall l, concat (map enc_ead_item l) = cbor_seq (flat_map ead_items l).
Proof.
  induction l as [|e l IH]; [reflexivity|]. cbn [map concat flat_map].
  rewrite cbor_seq_app, IH, enc_ead_item_rfc. reflexivity.
Qed.
Lemma enc_ead_rfc : forall l b, enc_ead l = Some b -> b = cbor_seq (flat_map ead_items l).
Proof.
  intros l b H. unfold enc_ead in H. destruct ((1 <=? zlen l) && (zlen l <=? 3)); [|discriminate].
  someinv H. apply eads_rfc.
Qed.
Lemma enc_message_1_rfc : forall m su gx ci b, enc_message_1 m su gx ci None = Some b ->
  b = cbor_seq (message_1_items m (suites_list su) gx (cid_of_v ci) []).
Proof.
  intros m su gx ci b H. unfold enc_message_1 in H.
  destruct (enc_suites su) eqn:S; [|discriminate]. destruct (enc_cidv ci) eqn:C; [|discriminate].
  someinv H. apply enc_suites_rfc in S. apply enc_cidv_rfc in C. subst.
  rewrite enc_int_rfc, enc_bstr_rfc. unfold message_1_items. cbn [flat_map app].
  unfold cbor_seq. cbn [flat_map]. now rewrite app_nil_r.
Qed.
Lemma message_1_ead : forall m su gx ci e,
  cbor_seq (message_1_items m su gx ci []) ++ cbor_seq (flat_map ead_items e) =
  cbor_seq (message_1_items m su gx ci e).
Proof. intros. rewrite <- cbor_seq_app. unfold message_1_items. cbn [flat_map]. now rewrite app_nil_r. Qed.
Lemma enc_info_rfc : forall l c n, enc_info l c n = info l c n.
Proof.
  intros. unfold enc_info, info, cbor_seq. cbn [flat_map].
  now rewrite !enc_int_rfc, enc_bstr_rfc, app_nil_r.
Qed.
Lemma enc_sig_structure_rfc : forall p e m, enc_sig_structure p e m = sig_structure p e m.
Proof.
  intros. unfold enc_sig_structure, sig_structure. rewrite enc_tstr_rfc, !enc_bstr_rfc, enc_head_rfc.
  cbn [cbor flat_map]. rewrite app_nil_r. reflexivity.
Qed.
Lemma enc_enc_structure_rfc : forall p e, enc_enc_structure p e = enc_structure p e.
Proof.
  intros. unfold enc_enc_structure, enc_structure. rewrite enc_tstr_rfc, !enc_bstr_rfc, enc_head_rfc.
  cbn [cbor flat_map]. rewrite app_nil_r. reflexivity.
Qed.
Lemma map_one : forall k v, cbor (Map [(k, v)]) = head 5 1 ++ cbor k ++ cbor v.
Proof. intros. cbn [cbor flat_map]. now rewrite app_nil_r. Qed.
Lemma enc_id_cred_rfc : forall i b, enc_id_cred i = Some b -> b = cbor (idcred_item (idcred_of i)).
Proof.
  intros [k|c|a fp] b H; cbn [enc_id_cred] in H.
  - someinv H. destruct k; cbn [idcred_of idcred_item enc_kidv];
      rewrite map_one, enc_head_rfc, ?enc_int_rfc, ?enc_bstr_rfc; reflexivity.
  - destruct (enc_chainv c) as [x|] eqn:C; [|discriminate]. someinv H.
    destruct c as [y|l]; cbn [enc_chainv idcred_of idcred_item] in *.
    + someinv C. rewrite map_one, enc_head_rfc, enc_int_rfc, enc_bstr_rfc. reflexivity.
    + destruct ((2 <=? zlen l) && (zlen l <=? 3)) eqn:L; [|discriminate]. someinv C.
      destruct l as [|u [|v l]]; [cbn in L; lia|cbn in L; lia|].
      cbn [idcred_item]. set (q := u :: v :: l) in *. rewrite map_one, !enc_head_rfc, enc_int_rfc.
      cbn [cbor]. rewrite zlen_map. do 3 f_equal. apply concat_map. apply enc_bstr_rfc.
  - someinv H. destruct a as [v|t]; cbn [idcred_of idcred_item enc_algv];
      rewrite map_one, !enc_head_rfc, ?enc_int_rfc, ?enc_tstr_rfc, enc_bstr_rfc; cbn [cbor flat_map];
      rewrite app_nil_r; reflexivity.
Qed.
Lemma enc_message_error_rfc : forall c i b, enc_message_error c i = Some b ->
  b = error_message c (option_map errinfo_of i).
Proof.
  intros c [i|] b H; unfold enc_message_error in H; unfold error_message, cbor_seq; cbn [option_map flat_map].
  - destruct (enc_err_info i) as [x|] eqn:X; [|discriminate]. someinv H. rewrite enc_int_rfc, app_nil_r.
    f_equal. destruct i as [t|s|]; cbn [enc_err_info errinfo_of errinfo_item] in *.
    + someinv X. apply enc_tstr_rfc.
    + now apply enc_suites_rfc.
    + someinv X. reflexivity.
  - someinv H. rewrite enc_int_rfc, app_nil_r. reflexivity.
Qed.

(** ** Unique decodability *)
Lemma head_inj : forall m n m' n' r r', 0 <= n < 2 ^ 64 -> 0 <= n' < 2 ^ 64 ->
  head m n ++ r = head m' n' ++ r' -> m = m' /\ n = n' /\ r = r'.
Proof.
  intros m n m' n' r r' Hn Hn' H. rewrite <- !enc_head_rfc in H.
  assert (A : next_major (DS 1 (enc_head m n ++ r)) = next_major (DS 1 (enc_head m' n' ++ r'))) by now rewrite H.
  rewrite !head_major in A by lia.
  assert (B : value_extract_raw 8 (DS 1 (enc_head m n ++ r)) = value_extract_raw 8 (DS 1 (enc_head m' n' ++ r')))
    by now rewrite H.
  rewrite !head_value in B by (lia || (right; lia)). inversion A. inversion B. auto.
Qed.
Lemma app_len_inj : forall (a b r r' : bytes), zlen a = zlen b -> a ++ r = b ++ r' -> a = b /\ r = r'.
Proof.
  intros a b r r' L H. split.
  - rewrite <- (take_app_exact _ (zlen a) a r eq_refl), H. now apply take_app_exact.
  - rewrite <- (drop_app_exact _ (zlen a) a r eq_refl), H. now apply drop_app_exact.
Qed.
Fixpoint item_rect' (P : item -> Prop)
  (Hn : forall v, P (Num v)) (Hb : forall b, P (Bstr b)) (Ht : forall b, P (Tstr b))
  (Ha : forall l, Forall P l -> P (Arr l))
  (Hm : forall l, Forall (fun p => P (fst p) /\ P (snd p)) l -> P (Map l))
  (Hu : P Tru) (i : item) : P i :=
  match i with
  | Num v => Hn v | Bstr b => Hb b | Tstr b => Ht b
  | Arr l => Ha l ((fix go l : Forall P l :=
      match l with [] => Forall_nil _ | x :: r => Forall_cons x (item_rect' P Hn Hb Ht Ha Hm Hu x) (go r) end) l)
  | Map l => Hm l ((fix go l : Forall (fun p => P (fst p) /\ P (snd p)) l :=
      match l with
      | [] => Forall_nil _
      | x :: r => Forall_cons x (conj (item_rect' P Hn Hb Ht Ha Hm Hu (fst x))
                                      (item_rect' P Hn Hb Ht Ha Hm Hu (snd x))) (go r) end) l)
  | Tru => Hu
  end.
Definition unique (a : item) : Prop :=
  forall b r r', sane a -> sane b -> cbor a ++ r = cbor b ++ r' -> a = b /\ r = r'.
Ltac sizes := repeat match goal with
  | |- context [zlen ?l] => lazymatch goal with H : 0 <= zlen l |- _ => fail | _ => pose proof (zlen_nonneg _ l) end
  | H : context [zlen ?l] |- _ => lazymatch goal with H : 0 <= zlen l |- _ => fail | _ => pose proof (zlen_nonneg _ l) end
  end.
Lemma cbor_shape : forall i, sane i -> i = Tru \/
  exists m n t, cbor i = head m n ++ t /\ 0 <= m <= 5 /\ 0 <= n < 2 ^ 64 /\
    match i with Num v => m = (if v <? 0 then 1 else 0) /\ n = (if v <? 0 then -1 - v else v) /\ t = []
    | Bstr b => m = 2 /\ n = zlen b /\ t = b | Tstr b => m = 3 /\ n = zlen b /\ t = b
    | Arr l => m = 4 /\ n = zlen l /\ t = flat_map cbor l
    | Map l => m = 5 /\ n = zlen l /\ t = flat_map (fun p : item * item => let (k, v) := p in cbor k ++ cbor v) l
    | Tru => False end.
Proof.
  intros i H. destruct i as [v|b|b|l|l|]; [right|right|right|right|right|now left]; cbn [cbor sane] in *.
  - destruct (v <? 0) eqn:V; eexists; eexists; exists []; rewrite app_nil_r;
      (split; [reflexivity|]); (split; [lia|]); (split; [lia|auto]).
  - sizes. eexists; eexists; eexists. split; [reflexivity|]. split; [lia|]. split; [lia|auto].
  - sizes. eexists; eexists; eexists. split; [reflexivity|]. split; [lia|]. split; [lia|auto].
  - sizes. eexists; eexists; eexists. split; [reflexivity|]. split; [lia|]. split; [lia|auto].
  - sizes. eexists; eexists; eexists. split; [reflexivity|]. split; [lia|]. split; [lia|auto].
Qed.
Lemma tru_not_head : forall m n t r, 0 <= m <= 5 -> 0 <= n < 2 ^ 64 -> head m n ++ t <> 245 :: r.
Proof.
  intros m n t r Hm Hn H. rewrite <- enc_head_rfc in H.
  assert (A : next_major (DS 1 (enc_head m n ++ t)) = next_major (DS 1 (245 :: r))) by now rewrite H.
  rewrite head_major in A by lia. cbn in A. inversion A. lia.
Qed.
Lemma list_unique : forall (l l' : list item) r r', zlen l = zlen l' -> Forall unique l ->
  Forall sane l -> Forall sane l' -> flat_map cbor l ++ r = flat_map cbor l' ++ r' -> l = l' /\ r = r'.
Proof.
  induction l as [|x l IH]; intros l' r r' L Hu Hs Hs' H.
  - destruct l'; [auto|]. rewrite zlen_cons, zlen_nil in L. sizes. lia.
  - destruct l' as [|y l']; [rewrite zlen_cons, zlen_nil in L; sizes; lia|].
    rewrite !zlen_cons in L. inversion Hu; subst. inversion Hs; subst. inversion Hs'; subst.
    cbn [flat_map] in H. rewrite <- !app_assoc in H.
    destruct (H2 y _ _ H4 H6 H) as [-> H']. destruct (IH l' r r') as [-> ->]; auto; lia.
Qed.
Lemma map_unique : forall (l l' : list (item * item)) r r', zlen l = zlen l' ->
  Forall (fun p => unique (fst p) /\ unique (snd p)) l ->
  Forall (fun p => sane (fst p) /\ sane (snd p)) l -> Forall (fun p => sane (fst p) /\ sane (snd p)) l' ->
  flat_map (fun p : item * item => let (k, v) := p in cbor k ++ cbor v) l ++ r =
  flat_map (fun p : item * item => let (k, v) := p in cbor k ++ cbor v) l' ++ r' -> l = l' /\ r = r'.
Proof.
  induction l as [|[k v] l IH]; intros l' r r' L Hu Hs Hs' H.
  - destruct l'; [auto|]. rewrite zlen_cons, zlen_nil in L. sizes. lia.
  - destruct l' as [|[k' v'] l']; [rewrite zlen_cons, zlen_nil in L; sizes; lia|].
    rewrite !zlen_cons in L. inversion Hu as [|? ? [U1 U2] U3]; subst. inversion Hs as [|? ? [S1 S2] S3]; subst.
    inversion Hs' as [|? ? [T1 T2] T3]; subst. cbn [fst snd] in *.
    cbn [flat_map] in H. rewrite <- !app_assoc in H.
    destruct (U1 k' _ _ S1 T1 H) as [-> H1]. destruct (U2 v' _ _ S2 T2 H1) as [-> H2].
    destruct (IH l' r r') as [-> ->]; auto; lia.
Qed.
Lemma sane_arr : forall l, sane (Arr l) -> zlen l < 2 ^ 64 /\ Forall sane l.
Proof. intros l [H1 H2]. split; [exact H1|]. induction l; constructor; destruct H2; [assumption|]. apply IHl; [rewrite zlen_cons in H1; lia|assumption]. Qed.
Lemma sane_map : forall l, sane (Map l) -> zlen l < 2 ^ 64 /\ Forall (fun p => sane (fst p) /\ sane (snd p)) l.
Proof.
  intros l [H1 H2]. split; [exact H1|]. induction l as [|[k v] l IH]; constructor; destruct H2 as (A & B & C); [auto|].
  apply IH; [rewrite zlen_cons in H1; lia|assumption].
Qed.
Theorem cbor_unique : forall a, unique a.
Proof.
  induction a using item_rect'; intros b' r r' Sa Sb H'.
  all: destruct (cbor_shape _ Sa) as [Ea|(m & n & t & Ea & Hm & Hn & Xa)]; try discriminate Ea.
  all: destruct (cbor_shape _ Sb) as [Eb|(m' & n' & t' & Eb & Hm' & Hn' & Xb)];
    try (subst b'; rewrite Ea in H'; cbn [cbor app] in H'; rewrite <- app_assoc in H'; now apply tru_not_head in H').
  all: try (cbn [cbor app] in H'; rewrite Eb in H'; rewrite <- app_assoc in H'; symmetry in H'; now apply tru_not_head in H').
  all: try (subst b'; cbn [cbor app] in H'; inversion H'; auto; fail).
  all: try contradiction.
  all: rewrite Ea, Eb in H'; rewrite <- !app_assoc in H';
    destruct (head_inj _ _ _ _ _ _ Hn Hn' H') as (Q1 & Q2 & Q3).
  - destruct Xa as (A1 & A2 & ->). destruct b' as [v'|x|x|x|x|]; try contradiction; destruct Xb as (B1 & B2 & ->);
      try (destruct (v <? 0); lia).
    split; [|exact Q3]. f_equal. destruct (v <? 0) eqn:V; destruct (v' <? 0) eqn:V'; lia.
  - destruct Xa as (A1 & A2 & ->). destruct b' as [v'|x|x|x|x|]; try contradiction; destruct Xb as (B1 & B2 & ->);
      try (destruct (v' <? 0); lia); try lia.
    destruct (app_len_inj b x r r') as [-> ->]; auto; lia.
  - destruct Xa as (A1 & A2 & ->). destruct b' as [v'|x|x|x|x|]; try contradiction; destruct Xb as (B1 & B2 & ->);
      try (destruct (v' <? 0); lia); try lia.
    destruct (app_len_inj b x r r') as [-> ->]; auto; lia.
  - destruct Xa as (A1 & A2 & ->). destruct b' as [v'|x|x|x|x|]; try contradiction; destruct Xb as (B1 & B2 & ->);
      try (destruct (v' <? 0); lia); try lia.
    apply sane_arr in Sa. apply sane_arr in Sb.
    destruct (list_unique l x r r') as [-> ->]; auto; try lia; tauto.
  - destruct Xa as (A1 & A2 & ->). destruct b' as [v'|x|x|x|x|]; try contradiction; destruct Xb as (B1 & B2 & ->);
      try (destruct (v' <? 0); lia); try lia.
    apply sane_map in Sa. apply sane_map in Sb.
    destruct (map_unique l x r r') as [-> ->]; auto; try lia; tauto.
Qed.
Lemma cbor_nonempty : forall i, cbor i <> [].
Proof. intros [v|b|b|l|l|]; cbn [cbor]; unfold head; try discriminate. destruct (v <? 0); discriminate. Qed.
Lemma cbor_seq_inj : forall l l', Forall sane l -> Forall sane l' -> cbor_seq l = cbor_seq l' -> l = l'.
Proof.
  induction l as [|a l IH]; intros l' H H' Q.
  - destruct l' as [|b l']; [reflexivity|]. rewrite cbor_seq_cons in Q. cbn in Q.
    destruct (cbor b) eqn:B; [now apply cbor_nonempty in B|discriminate].
  - destruct l' as [|b l'].
    + rewrite cbor_seq_cons in Q. cbn in Q. destruct (cbor a) eqn:B; [now apply cbor_nonempty in B|discriminate].
    + rewrite !cbor_seq_cons in Q. inversion H; subst. inversion H'; subst.
      destruct (cbor_unique a b _ _ H2 H4 Q) as [-> Q2]. f_equal. now apply IH.
Qed.

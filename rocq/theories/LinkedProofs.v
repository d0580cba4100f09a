(** A party over a ready-made suite meets the contract of the handshake theorems.
    No code of /repo is modelled here. *)
From Verif Require Import Bytes Facts Values Monad Psa SuiteX SuiteW SuiteCalls SuiteSpec SuiteLogic SuiteProofs SuiteStore SuiteOps SuitePoint SuiteAccept SuiteClaims SuiteClaims2
  Msg1 Msg2 Msg3 Msg4 Exporter History Spec Rfc Uses Conform Sessions Linked AskProofs.
From Verif Require Import Logic.
Import SuiteSpec.

Lemma key_id_inj : forall i j, id_ok i -> id_ok j -> key_id i = key_id j -> i = j.
Proof.
  intros i j Hi Hj H. unfold key_id, le4, id_ok in *. rewrite (Z.mod_small i (2 ^ 32)), (Z.mod_small j (2 ^ 32)) in H by lia.
  injection H as H0 H1 H2 H3.
  assert (D : forall k, 0 <= k < 2 ^ 32 -> k = k mod 256 + 256 * (k / 256 mod 256) + 65536 * (k / 65536 mod 256) + 16777216 * (k / 16777216 mod 256)).
  { intros k Hk. change 65536 with (256 * 256). change 16777216 with (256 * 256 * 256). rewrite <- !Z.div_div by lia.
    pose proof (Z.div_mod k 256 ltac:(lia)). pose proof (Z.div_mod (k / 256) 256 ltac:(lia)).
    pose proof (Z.div_mod (k / 256 / 256) 256 ltac:(lia)).
    assert (k / 256 / 256 / 256 < 256) by (rewrite !Z.div_div by lia; apply Z.div_lt_upper_bound; lia).
    assert (0 <= k / 256 / 256 / 256) by (repeat apply Z.div_pos; lia).
    rewrite (Z.mod_small (k / 256 / 256 / 256)) by lia. lia. }
  rewrite (D i Hi), (D j Hj), H0, H1, H2, H3. reflexivity.
Qed.
Lemma unle4_key : forall i, 0 <= i < 2 ^ 31 -> unle4 (key_id i) = i.
Proof.
  intros i H. unfold unle4, key_id, le4. cbn [nth]. rewrite (Z.mod_small i (2 ^ 32)) by lia.
  replace (i mod 256 + 256 * (i / 256 mod 256) + 65536 * (i / 65536 mod 256) + 16777216 * (i / 16777216 mod 256)) with i.
  - destruct (Z.ltb_spec i (2 ^ 31)); lia.
  - change 65536 with (256 * 256). change 16777216 with (256 * 256 * 256). rewrite <- !Z.div_div by lia.
    pose proof (Z.div_mod i 256 ltac:(lia)). pose proof (Z.div_mod (i / 256) 256 ltac:(lia)).
    pose proof (Z.div_mod (i / 256 / 256) 256 ltac:(lia)).
    assert (i / 256 / 256 / 256 < 256) by (rewrite !Z.div_div by lia; apply Z.div_lt_upper_bound; lia).
    assert (0 <= i / 256 / 256 / 256) by (repeat apply Z.div_pos; lia).
    rewrite (Z.mod_small (i / 256 / 256 / 256)) by lia. lia.
Qed.

Lemma imported_more : forall h x id kt raw, imported h id kt raw ->
  (forall o, In (HDestroy (Some id), o) x -> ho_ret o <> OK) -> imported (h ++ x) id kt raw.
Proof.
  intros h x id kt raw (h1 & h2 & k & -> & D) N. exists h1, (h2 ++ x), k. split; [now rewrite <- app_assoc|].
  intros o I. apply in_app_or in I. destruct I; auto.
Qed.
Lemma key_of_app : forall kid e t v, key_of kid e = Some v -> key_of kid (e ++ t) = Some v.
Proof.
  induction e as [|ev e IH]; intros t v; cbn [app key_of]; [discriminate|].
  destruct ev; auto.
  - destruct ((r =? OK) && beqb kid kid0); auto.
  - destruct (beqb kid kid0); [discriminate|auto].
Qed.

(** The public key of a pair is the x-coordinate. *)
Lemma pair_be {L : libs} : forall h s w id np nu o s', fresh_ids L -> shipped (SW w) -> reached (SW w) h s ->
  hrun (SW w) (HMkPair (Some id) (Some np) true (Some nu) true) s = XRet o s' -> ho_ret o = OK -> nu = cv_len (ws_curve w) ->
  ho_2 o = be (Z.to_nat (cv_len (ws_curve w))) (fst (x_public (ws_curve w) (ho_1 o))).
Proof.
  intros h s w id np nu o s' FI SH RE R O ->. destruct (shipped_w _ SH) as [F1 F2 F3 F4 F5 F6].
  destruct (mkpair_w _ _ _ _ _ _ _ R O) as (k & c & F & U & CB & Z & ZN & NU & Q1 & Q2).
  destruct (found _ _ _ FI RE _ _ F) as (kt & raw & I & AT & D). destruct (attrs_w_export _ _ _ _ AT U) as (-> & AE).
  rewrite AE in CB. cbn [a_bits] in CB. rewrite F2, F5 in CB. injection CB as <-. rewrite <- Q1 in *.
  destruct (x_public (ws_curve w) (ho_1 o)) as [x y] eqn:XP. cbn [fst snd] in *.
  pose proof (cv_bounds (ws_curve w)) as (B & _ & N).
  assert (PL : zlen (point (ws_curve w) x y) = ws_uncomp w).
  { unfold point. rewrite zlen_cons, zlen_app, !zlen_be. lia. }
  rewrite arr_read_exact in Q2 by exact PL. unfold point in Q2. change (drop 1 (4 :: ?l)) with l in Q2.
  rewrite take_app_exact in Q2 by (rewrite zlen_be; lia). exact Q2.
Qed.

Section Party.
Context {E : env} {L : libs} (S : suite) (mine : Z -> option (Z * bytes))
  (h : list event -> list (hcall * hout)) (st : list event -> xst) (p : primitives).
Context (FI : fresh_ids L) (SZ : sized L) (SH : shipped S) (IM : implements L S p) (LK : linked E L S mine h st).
Notation s := (table S).

(** Identifiers. *)
Lemma imported_range : forall t id kt raw, kept S kt -> imported (h t) id kt raw -> 0x40000000 <= id <= 0x7fffffff.
Proof.
  intros t id kt raw K I.
  destruct (proj2 (store_exact S (h t) (st t) id FI (lk_past _ _ _ _ _ _ LK t)) (ex_intro _ kt (ex_intro _ raw (conj K I)))) as [k F].
  destruct (reached_keyed S _ _ FI (lk_past _ _ _ _ _ _ LK t)) as [K1 _]. exact (proj1 (K1 _ _ F)).
Qed.

Lemma import_out : forall t kt raw o, says S (st t) (HImport kt raw (Some 0)) o -> ho_ret o = OK ->
  exists id, o = HO OK (Some id) [] [] /\ id_ok id /\ kid_after o = key_id id /\
    (kept S kt /\ (forall kt' raw', kept S kt' -> ~ imported (h t) id kt' raw') \/ kt = KT_MAKE_KEY_PAIR /\ id = 0).
Proof.
  intros t kt raw o [s' R] O. destruct (import_spec _ _ _ _ _ _ _ R) as (O1 & O2 & D). destruct o as [r k o1 o2]. cbn in O, O1, O2 |- *. subst.
  destruct D as [(_ & _ & EK & _ & _ & D)|[(D & _)|(a & d & id & _ & D & A & X & Z & _)]]; cbn in D.
  - subst k. exists 0. split; [reflexivity|]. split; [unfold id_ok; lia|]. split; [reflexivity|]. now right.
  - discriminate D.
  - subst k. exists id. destruct (FI (x_log (st t)) (map fst (x_keys (st t))) ltac:(rewrite zlen_map; exact Z)) as [_ B]. rewrite <- X in B.
    assert (K : kept S kt) by (apply (attrs_kept S kt (zlen raw)); congruence).
    split; [reflexivity|]. split; [unfold id_ok; lia|]. split; [reflexivity|]. left. split; [exact K|].
    exact (proj2 (import_fresh S _ _ _ _ _ _ _ _ FI (lk_past _ _ _ _ _ _ LK t) K R eq_refl eq_refl)).
Qed.

(** Long-term keys stay. *)
Definition intact (t : list event) : Prop := forall id v r, mine id = Some v -> ~ In (EvDestroy (key_id id) r) t.
Lemma own : forall t id kt raw, intact t -> mine id = Some (kt, raw) ->
  kept S kt /\ kt <> KT_MAKE_KEY_PAIR /\ imported (h t) id kt raw /\ 0x40000000 <= id <= 0x7fffffff.
Proof.
  intros t id kt raw N M. destruct (lk_mine _ _ _ _ _ _ LK t id kt raw M) as (A & B & C); [intros r; exact (N _ _ r M)|].
  split; [exact A|]. split; [exact B|]. split; [exact C|]. eapply imported_range; eassumption.
Qed.
Lemma import_not_own : forall t kt raw o id v, intact t -> says S (st t) (HImport kt raw (Some 0)) o -> ho_ret o = OK ->
  mine id = Some v -> kid_after o <> key_id id.
Proof.
  intros t kt raw o id [kt' raw'] N Y O M X. destruct (own _ _ _ _ N M) as (A & _ & C & B).
  destruct (import_out _ _ _ _ Y O) as (j & -> & J & K & D). rewrite K in X. apply key_id_inj in X; [|exact J|unfold id_ok; lia]. subst j.
  destruct D as [[_ D]|[_ D]]; [exact (D _ _ A C)|lia].
Qed.

Variable t0 : list event.
Hypothesis N0 : intact t0.
Lemma asks_intact : forall e, asks t0 s e -> intact (e ++ t0) /\
  forall kt key kid, In (EvImport kt key OK kid) e ->
    (exists i, id_ok i /\ kid = key_id i) /\ forall id v, mine id = Some v -> kid <> key_id id.
Proof.
  induction e as [|ev e IH]; intros A; [split; [exact N0|intros ? ? ? []]|]. destruct A as [A1 A2]. destruct (IH A2) as [I1 I2]. clear IH.
  assert (D1 : intact (ev :: e ++ t0)).
  { intros id v r M [H|H]; [|exact (I1 _ _ _ M H)]. subst ev. cbn [asked] in A1. destruct A1 as ((kt & key & H) & _).
    exact (proj2 (I2 _ _ _ H) _ _ M eq_refl). }
  split; [exact D1|]. intros kt key kid [H|H]; [|exact (I2 _ _ _ H)]. subst ev. cbn [asked] in A1. destruct A1 as [f F].
  destruct (lk_import _ _ _ _ _ _ LK f (e ++ t0) kt key) as (o & x & Y & Z & _). rewrite F in Z. injection Z as Z1 Z2.
  split.
  - destruct (import_out _ _ _ _ Y (eq_sym Z1)) as (i & _ & J & K & _). exists i. split; [exact J|congruence].
  - intros id v M. rewrite Z2. exact (import_not_own _ _ _ _ _ _ I1 Y (eq_sym Z1) M).
Qed.
Lemma hand_id : forall e kid, asks t0 s e -> hand kid e -> exists i, id_ok i /\ kid = key_id i.
Proof. intros e kid A (kt & key & H). exact (proj1 (proj2 (asks_intact e A) _ _ _ H)). Qed.

(** The keys of the library are in the store. *)
Lemma asks_held : forall e, asks t0 s e -> forall id kt key, id_ok id -> key_of (key_id id) e = Some (kt, key) ->
  imported (h (e ++ t0)) id kt key.
Proof.
  induction e as [|ev e IH]; intros A id kt key J H; [discriminate H|]. destruct A as [A1 A2]. specialize (IH A2 id).
  pose proof (key_of_app _ _ t0 _ H) as H'. cbn [app] in H'.
  assert (G : forall x t', gentle x t' -> key_of (key_id id) t' = Some (kt, key) -> forall o, In (HDestroy (Some id), o) x -> ho_ret o <> OK).
  { intros x t' G Q o I O. rewrite (G _ _ I O) in Q. discriminate Q. }
  destruct (key_event ev) eqn:KE.
  2:{ destruct (lk_other _ _ _ _ _ _ LK ev (e ++ t0) KE) as (x & X1 & X2). cbn [app]. rewrite X1. apply imported_more; [|eapply G; eassumption].
      apply IH; [exact J|]. destruct ev; try discriminate KE; exact H. }
  destruct ev; try discriminate KE; cbn [asked] in A1; cbn [key_of] in H.
  - (* import *)
    destruct A1 as [f F]. destruct (lk_import _ _ _ _ _ _ LK f (e ++ t0) kt0 key0) as (o & x & Y & Z & X1 & X2). rewrite F in Z. injection Z as Z1 Z2. subst r kid.
    cbn [app]. rewrite X1.
    destruct ((ho_ret o =? OK) && beqb (key_id id) (kid_after o)) eqn:B.
    + apply andb_true_iff in B. destruct B as [B1 B2]. apply Z.eqb_eq in B1. apply beqb_eq in B2. injection H as <- <-.
      destruct (import_out _ _ _ _ Y B1) as (i & -> & Ji & K & _). rewrite K in B2. apply key_id_inj in B2; auto. subst i.
      exists (h (e ++ t0)), x, (Some 0). split; [reflexivity|]. eapply G; eassumption.
    + change ((HImport kt0 key0 (Some 0), o) :: x) with ([(HImport kt0 key0 (Some 0), o)] ++ x). rewrite app_assoc.
      apply imported_more; [|eapply G; eassumption]. apply imported_more; [now apply IH|]. intros o' [I|[]]. discriminate I.
  - (* destroy *)
    destruct A1 as [HA [f F]]. destruct (hand_id _ _ A2 HA) as (i & Ji & ->).
    destruct (beqb (key_id id) (key_id i)) eqn:B; [discriminate H|].
    destruct (lk_destroy _ _ _ _ _ _ LK f (e ++ t0) i Ji) as (o & x & Y & Z & X1 & X2). rewrite Z in F. subst r. cbn [app]. rewrite X1.
    change ((HDestroy (Some i), o) :: x) with ([(HDestroy (Some i), o)] ++ x). rewrite app_assoc.
    apply imported_more; [|eapply G; eassumption]. apply imported_more; [now apply IH|].
    intros o' [I|[]]. injection I as -> _. rewrite beqb_refl in B. discriminate B.
Qed.

Lemma same_key : forall t id kt raw kt' raw', imported (h t) id kt raw -> imported (h t) id kt' raw' ->
  kept S kt -> kept S kt' -> kt <> KT_MAKE_KEY_PAIR -> kt' <> KT_MAKE_KEY_PAIR -> raw = raw'.
Proof.
  intros t id kt raw kt' raw' I I' K K' N N'. destruct (reached_keyed S _ _ FI (lk_past _ _ _ _ _ _ LK t)) as [_ K2].
  apply (attrs_kept S kt (zlen raw)) in K. apply (attrs_kept S kt' (zlen raw')) in K'.
  destruct (attrs_for S kt (zlen raw)) as [a|] eqn:A; [|congruence]. destruct (attrs_for S kt' (zlen raw')) as [a'|] eqn:A'; [|congruence].
  destruct (K2 _ _ _ _ I A) as (k & F & _ & D & _). destruct (K2 _ _ _ _ I' A') as (k' & F' & _ & D' & _).
  rewrite F in F'. injection F' as <-. rewrite <- (D N), <- (D' N'). reflexivity.
Qed.
Lemma asks_split : forall e e1 ev e2, asks t0 s e -> e = e1 ++ ev :: e2 -> asked t0 s ev e2 /\ asks t0 s e2.
Proof.
  intros e e1. revert e. induction e1 as [|x e1 IH]; intros e ev e2 A ->; cbn [app asks] in A; [exact A|].
  exact (IH _ _ _ (proj2 A) eq_refl).
Qed.
Lemma asks_in : forall e ev, asks t0 s e -> In ev e -> exists e2, asked t0 s ev e2 /\ asks t0 s e2 /\ exists e1, e = e1 ++ ev :: e2.
Proof.
  intros e ev A I. apply in_split in I. destruct I as (e1 & e2 & X). destruct (asks_split _ _ _ _ A X). exists e2. eauto.
Qed.
(** What is behind a handle when it is used. *)
Lemma used_key : forall e ev kid kt key, asks t0 s e -> with_key e ev kid kt key -> exists e2 id, asked t0 s ev e2 /\ asks t0 s e2 /\
  kid = key_id id /\ id_ok id /\ imported (h (e2 ++ t0)) id kt key.
Proof.
  intros e ev kid kt key A (e1 & e2 & X & K). destruct (asks_split _ _ _ _ A X) as [A1 A2].
  assert (H : hand kid e2).
  { clear - K. induction e2 as [|x e2 IH]; [discriminate K|].
    assert (W : hand kid e2 -> hand kid (x :: e2)) by (intro W; exact (hand_app _ _ [x] W)).
    destruct x; cbn [key_of] in K; auto.
    - destruct ((r =? OK) && beqb kid kid0) eqn:B; [|auto]. apply andb_true_iff in B. destruct B as [B1 B2].
      apply Z.eqb_eq in B1. apply beqb_eq in B2. subst. injection K as <- <-. eexists _, _. left. reflexivity.
    - destruct (beqb kid kid0); [discriminate K|auto]. }
  destruct (hand_id _ _ A2 H) as (id & J & ->). exists e2, id. repeat (split; [assumption||reflexivity|]). eapply asks_held; eassumption.
Qed.
Lemma table_facts : hash_size (hash_of S) = cs_hash s /\ match S with SX _ => cs_ecc s = 32 | SW w => cs_ecc s = cv_len (ws_curve w) end.
Proof. destruct (shipped_cases _ SH) as [-> | [-> | [-> | ->]]]; split; reflexivity. Qed.
Lemma kept_le : forall kt, 1 <= kt <= 7 -> kept S kt. Proof. now left. Qed.

Lemma past : forall t, reached S (h t) (st t). Proof. exact (lk_past _ _ _ _ _ _ LK). Qed.
Lemma hash_says : forall e x n y, asks t0 s e -> In (EvHash x n OK y) e -> y = p_hash p n x /\ zlen y = n.
Proof.
  intros e x n y A I. destruct (asks_in _ _ A I) as (e2 & [-> [f F]] & _).
  destruct (lk_hash _ _ _ _ _ _ LK f (e2 ++ t0) x (cs_hash s)) as (o & [s' Y] & Z). rewrite F in Z. injection Z as Z1 Z2.
  destruct (hash_ok _ _ _ _ _ _ Y (eq_sym Z1)) as [Q _]. rewrite Z2, Q. rewrite <- (proj1 table_facts). split; [symmetry; apply (im_hash _ _ _ IM)|apply (sz_hash _ SZ)].
Qed.
Lemma expand_says : forall e kid i n y, asks t0 s e -> In (EvExpand kid i n OK y) e -> zlen y = n /\
  exists e2 id prk, asks t0 s e2 /\ kid = key_id id /\ id_ok id /\ imported (h (e2 ++ t0)) id KT_EXPAND prk /\ y = p_expand p prk i n.
Proof.
  intros e kid i n y A I. destruct (asks_in _ _ A I) as (e2 & (HA & N & f & F) & A2 & _).
  destruct (hand_id _ _ A2 HA) as (id & J & ->). destruct (lk_expand _ _ _ _ _ _ LK f (e2 ++ t0) id i n J) as (o & [s' Y] & Z). rewrite F in Z. injection Z as Z1 Z2.
  destruct (op_expand _ _ _ FI (past _) _ _ _ _ _ Y (eq_sym Z1)) as (prk & P & Q). rewrite Z2, Q.
  split; [now apply (sz_expand _ SZ)|]. exists e2, id, prk. repeat (split; [assumption || reflexivity|]). symmetry. apply (im_expand _ _ _ IM).
Qed.
Lemma agree_says : forall f t id peer out, id_ok id -> o_agree f t (key_id id) peer (cs_ecc s) = (OK, out) ->
  exists kt sk, kept S kt /\ kt <> KT_MAKE_KEY_PAIR /\ imported (h t) id kt sk /\ out = p_dh p sk peer.
Proof.
  intros f t id peer out J F. destruct (lk_agree _ _ _ _ _ _ LK f t id peer (cs_ecc s) J) as (o & [s' Y] & Z). rewrite F in Z. injection Z as Z1 Z2.
  pose proof (past t) as RE. pose proof (im_dh _ _ _ IM) as D. rewrite Z2. clear F Z2.
  destruct S as [x|w].
  - destruct (op_agree_x _ _ FI _ _ _ _ _ _ SH RE Y (eq_sym Z1)) as (kt & sk & K & I & L1 & L2 & _ & ->).
    exists kt, sk. split; [left; destruct K as [-> | ->]; cbv; intuition discriminate|]. split; [destruct K as [-> | ->]; discriminate|].
    split; [exact I|]. symmetry. now apply D.
  - destruct (op_agree_w _ _ FI _ _ _ _ _ _ SH RE Y (eq_sym Z1)) as (sk & y & I & L1 & L2 & C & ->).
    exists KT_KEY_AGREEMENT, sk. split; [left; cbv; intuition discriminate|]. split; [discriminate|].
    split; [exact I|]. symmetry. now apply (D _ _ y).
Qed.
Lemma fetched : forall e cr, asks t0 s e -> In (EvFetch OK cr) e -> exists id kt raw, mine id = Some (kt, raw) /\ cr_priv cr = key_id id.
Proof. intros e cr A I. destruct (asks_in _ _ A I) as (e2 & [f F] & _). exact (lk_fetch _ _ _ _ _ _ LK _ _ _ F). Qed.

Ltac kept_low := left; cbv; intuition discriminate.
Lemma asks_obey : forall e, asks t0 s e -> obeys p (keys_of mine) e /\ apart e.
Proof.
  intros e A. split.
  2:{ intros cr kt key I J. destruct (fetched _ _ A I) as (id & k & raw & M & X). rewrite X in J.
      exact (proj2 (proj2 (asks_intact _ A) _ _ _ J) _ _ M eq_refl). }
  split; [split|split; [|split; [|split; [|split; [|split; [|split; [|split]]]]]]].
  - intros x n y I. exact (proj2 (hash_says _ _ _ _ A I)).
  - intros kid i n y I. exact (proj1 (expand_says _ _ _ _ _ A I)).
  - intros x n y I. exact (proj1 (hash_says _ _ _ _ A I)).
  - intros kid salt ikm prk W. destruct (used_key _ _ _ _ _ A W) as (e2 & id & (HA & f & F) & A2 & -> & J & I).
    destruct (lk_extract _ _ _ _ _ _ LK f (e2 ++ t0) id salt (cs_hash s) J) as (o & [s' Y] & Z). rewrite F in Z. injection Z as Z1 Z2.
    destruct (op_extract _ _ _ FI (past _) _ _ _ _ _ Y (eq_sym Z1)) as (k & I' & _ & Q).
    rewrite (same_key _ _ _ _ _ _ I I') by (kept_low || discriminate). rewrite Z2, Q, (im_extract _ _ _ IM).
    apply take_all. rewrite (sz_extract _ SZ), (proj1 table_facts). lia.
  - intros kid i n y prk W. destruct (used_key _ _ _ _ _ A W) as (e2 & id & (HA & N & f & F) & A2 & -> & J & I).
    destruct (lk_expand _ _ _ _ _ _ LK f (e2 ++ t0) id i n J) as (o & [s' Y] & Z). rewrite F in Z. injection Z as Z1 Z2.
    destruct (op_expand _ _ _ FI (past _) _ _ _ _ _ Y (eq_sym Z1)) as (k & I' & Q).
    rewrite (same_key _ _ _ _ _ _ I I') by (kept_low || discriminate). now rewrite Z2, Q, (im_expand _ _ _ IM).
  - intros kid priv pub I. destruct (asks_in _ _ A I) as (e2 & (HA & f & n & F) & A2 & _).
    destruct (hand_id _ _ A2 HA) as (id & J & ->). destruct (lk_mkpair _ _ _ _ _ _ LK f (e2 ++ t0) id n J) as (o & [s' Y] & Z).
    rewrite F in Z. injection Z as Z1 Z2 Z3. rewrite Z2, Z3. pose proof (im_pub _ _ _ IM) as D. pose proof (past (e2 ++ t0)) as RE. pose proof (proj2 table_facts) as TF.
    clear F A I A2 HA. destruct S as [x|w].
    + destruct (mkpair_x _ _ _ _ _ _ _ _ _ Y (eq_sym Z1)) as (seed & _ & _ & _ & _ & _ & _ & Q & _).
      specialize (D seed). rewrite <- Q in D. cbn [fst snd] in D. now symmetry.
    + rewrite D. apply (pair_be _ _ _ _ _ _ _ _ FI SH RE Y (eq_sym Z1) TF).
  - intros kid peer g priv W. destruct (used_key _ _ _ _ _ A W) as (e2 & id & (HA & f & F) & A2 & -> & J & I).
    destruct (agree_says _ _ _ _ _ J F) as (kt & sk & K & K1 & I' & ->).
    now rewrite (same_key _ _ _ _ _ _ I I') by (exact K || exact K1 || kept_low || discriminate).
  - intros kid peer g I N. destruct (asks_in _ _ A I) as (e2 & (HA & f & F) & A2 & e1 & X).
    destruct HA as [(kt & key & HA)|(cr & HA & <-)].
    { exfalso. apply (N kt key). rewrite X. apply in_or_app. right. right. exact HA. }
    destruct (fetched _ _ A2 HA) as (id & kt & raw & M & Y). rewrite Y in *.
    destruct (own _ _ _ _ (proj1 (asks_intact _ A2)) M) as (O1 & O2 & O3 & O4).
    assert (J : id_ok id) by (unfold id_ok; lia). destruct (agree_says _ _ _ _ _ J F) as (kt' & sk & K & K1 & I' & ->).
    unfold keys_of. rewrite unle4_key by lia. rewrite M. now rewrite (same_key _ _ _ _ _ _ O3 I') by assumption.
  - intros kid iv ad x y key W. destruct (used_key _ _ _ _ _ A W) as (e2 & id & (HA & f & n & F) & A2 & -> & J & I).
    destruct (lk_encrypt _ _ _ _ _ _ LK f (e2 ++ t0) id iv ad x n J) as (o & [s' Y] & Z). rewrite F in Z. injection Z as Z1 Z2.
    destruct (op_encrypt _ _ _ FI SH (past _) _ _ _ _ _ _ _ Y (eq_sym Z1)) as (k & I' & _ & Q & _).
    rewrite (same_key _ _ _ _ _ _ I I') by (kept_low || discriminate). now rewrite Z2, Q, (im_enc _ _ _ IM).
  - intros kid iv ad x y key W. destruct (used_key _ _ _ _ _ A W) as (e2 & id & (HA & f & n & F) & A2 & -> & J & I).
    destruct (lk_decrypt _ _ _ _ _ _ LK f (e2 ++ t0) id iv ad y n J) as (o & [s' Y] & Z). rewrite F in Z. injection Z as Z1 Z2.
    destruct (op_decrypt _ _ _ FI SH (past _) _ _ _ _ _ _ _ Y (eq_sym Z1)) as (k & I' & _ & Q & _).
    rewrite (same_key _ _ _ _ _ _ I I') by (kept_low || discriminate). now rewrite Z2, (im_dec _ _ _ IM).
Qed.

Lemma asks_sign : forall e, asks t0 s e -> signs L S mine e.
Proof.
  intros e A. split.
  - intros kid i sig I. destruct (asks_in _ _ A I) as (e2 & ((cr & HA & <-) & f & n & F) & A2 & _).
    destruct (fetched _ _ A2 HA) as (id & kt & raw & M & Y). rewrite Y in *. exists id, kt, raw. split; [exact M|]. split; [reflexivity|].
    destruct (own _ _ _ _ (proj1 (asks_intact _ A2)) M) as (O1 & O2 & O3 & O4). assert (J : id_ok id) by (unfold id_ok; lia).
    destruct (lk_sign _ _ _ _ _ _ LK f (e2 ++ t0) id i n J) as (o & [s' Q] & Z). rewrite F in Z. injection Z as Z1 Z2. rewrite Z2.
    pose proof (past (e2 ++ t0)) as RE. pose proof (fun sk I' => same_key _ _ _ _ KT_SIGNATURE sk O3 I' O1 ltac:(kept_low) O2 ltac:(discriminate)) as SK.
    clear - FI SH RE Q Z1 SK. destruct S as [x|w].
    + destruct (op_sign_x _ _ FI _ _ _ _ _ _ SH RE Q (eq_sym Z1)) as (sk & I' & _ & _ & ->). now rewrite (SK _ I').
    + destruct (op_sign_w _ _ FI _ _ _ _ _ _ SH RE Q (eq_sym Z1)) as (sk & l & I' & _ & _ & ->). exists l. now rewrite (SK _ I').
  - intros kid i sig pk W. destruct (used_key _ _ _ _ _ A W) as (e2 & id & (HA & f & F) & A2 & -> & J & I).
    destruct (lk_verify _ _ _ _ _ _ LK f (e2 ++ t0) id i sig J) as (o & [s' Y] & Z). rewrite F in Z.
    pose proof (past (e2 ++ t0)) as RE.
    pose proof (fun kt' pk' I' K' N' => same_key _ _ _ _ kt' pk' I I' ltac:(kept_low) K' ltac:(discriminate) N') as SK.
    clear - FI SH RE Y Z SK. destruct S as [x|w].
    + destruct (op_verify_x _ _ FI _ _ _ _ _ _ SH RE Y (eq_sym Z)) as (kt & k & K & I' & _ & _ & Q).
      rewrite (SK _ _ I'); [exact Q|left; destruct K as [-> | ->]; cbv; intuition discriminate|destruct K as [-> | ->]; discriminate].
    + destruct (op_verify_w _ _ FI _ _ _ _ _ _ SH RE Y (eq_sym Z)) as (k & I' & _ & _ & Q).
      rewrite (SK _ _ I'); [exact Q|kept_low|discriminate].
Qed.
End Party.

(** What each step of a message call computes when it succeeds. *)
From Verif Require Import Monad Common Msg1 Msg2 Msg3 Rfc Uses Conform Logic Sym CborProofs RfcProofs CodecProofs.

Lemma firstn_rep : forall k j, firstn j (repeat 0 k) = repeat 0 (Nat.min j k).
Proof. induction k; destruct j; cbn [firstn repeat Nat.min]; try reflexivity. now rewrite IHk. Qed.
Lemma skipn_rep : forall k j, skipn j (repeat 0 k) = repeat 0 (k - j).
Proof. induction k; destruct j; cbn [skipn repeat Nat.sub]; try reflexivity. apply IHk. Qed.
Lemma blit_zeros_read : forall n out, zlen out <= n -> blit (zeros n) out = arr_read n out.
Proof.
  intros n out H. unfold blit, arr_read, take, zeros, zlen in *.
  rewrite firstn_app, firstn_all2 by lia. f_equal. rewrite firstn_rep, skipn_rep. f_equal. lia.
Qed.
Lemma fits_some : forall n b x, fits n b = Some x -> x = b /\ zlen b <= n.
Proof. intros n b x H. unfold fits in H. destruct (Z.leb_spec (zlen b) n); [|discriminate]. inversion H; subst. split; [reflexivity|assumption]. Qed.
Lemma u32_id : forall n, 0 <= n < 2 ^ 32 -> u32 n = n.
Proof. intros. unfold u32. now apply Z.mod_small. Qed.

Section Steps.
Context {E : env}.

(** [reads m c x]: in context [c], [m] only reads and returns [x]. *)
Definition reads {A} (m : M A) (c : ctx) (x : A) : Prop :=
  forall t, sat Any m (Wd c t) (fun y w' => y = x /\ w' = Wd c t).
Lemma reads_th : forall c, reads get_th c (th_of c).
Proof. intros c t. sy. split; reflexivity. Qed.
Lemma reads_prk : forall c, reads get_prk c (prk_of c).
Proof. intros c t. sy. split; reflexivity. Qed.
Lemma reads_ret : forall A (x : A) c, reads (ret x) c x.
Proof. intros A x c t. apply sat_ret. split; reflexivity. Qed.

Lemma ok_kdf : forall exact len label context prk n c t cx k,
  reads context c cx -> reads prk c k ->
  sat Any (kdf exact len label context prk n) (Wd c t) (fun x w' => fst x = OK ->
    exists t', w' = Wd c (t' ++ t) /\
      expanded t' k (info label cx (u32 n)) n (snd x) /\ zlen (snd x) = n).
Proof.
  intros exact len label context prk n c t cx k Hc Hp. unfold kdf. repeat sy.
  eapply sat_conseq; [apply Hc|]. intros y w' [-> ->]. cbv beta.
  repeat sy. eapply sat_conseq; [apply Hp|]. intros y w' [-> ->]. cbv beta. repeat sy. okz.
  apply sat_ret. cbn [fst snd]. intros _. apply fits_some in X0 as [-> _].
  eexists (_ :: _ :: _ :: _ :: _ :: []). split; [reflexivity|]. split; [|now apply zlen_blit_zeros].
  eexists. eexists. rewrite <- enc_info_rfc. split; [keyed|split; [eassumption|now apply blit_zeros_read]].
Qed.

(** Ephemeral keys. *)
Lemma ok_gen_dh_keys : forall c t,
  sat Any gen_dh_keys (Wd c t) (fun r w' => r = OK ->
    let n := cs_ecc (the_suite c) in
    exists t' priv pub,
      w' = Wd (set_dh_pub (blit (c_dh_pub c) pub) (set_dh_priv (blit (c_dh_priv c) priv)
                 (set_dh_priv_len n (set_dh_pub_len n c)))) (t' ++ t) /\
      made t' priv pub /\ zlen priv = n /\ zlen pub = n).
Proof.
  intros c t. unfold gen_dh_keys. repeat sy. fin.
  do 3 eexists. split; [trx|]. split; [eexists; lift|]. split; now symmetry.
Qed.

Definition secret_of (c : ctx) : bytes := arr_read (c_dh_secret_len c) (c_dh_secret c).
Lemma ok_comp_dh_secret : forall c t,
  sat Any comp_dh_secret (Wd c t) (fun r w' => r = OK ->
    let n := cs_ecc (the_suite c) in
    exists t' g,
      w' = Wd (set_dh_secret (blit (c_dh_secret c) g) (set_dh_secret_len n c)) (t' ++ t) /\
      agreed t' (priv_of c) (peer_of c) g /\ zlen g = n).
Proof.
  intros c t. unfold comp_dh_secret. repeat sy. fin.
  do 2 eexists. split; [trx|]. split; [eexists; keyed|]. assumption.
Qed.

Lemma ok_hash_into_th : forall n x c t,
  sat Any (hash_into_th n x) (Wd c t) (fun y w' =>
    exists out, w' = Wd (set_th (blit (c_th c) out) (set_th_len n c)) (EvHash x n (fst y) out :: t) /\
      snd y = zlen out).
Proof.
  intros n x c t. unfold hash_into_th. repeat sy. apply sat_ret. cs. eexists. split; reflexivity.
Qed.

(** TH_2. *)
Lemma ok_comp_th_2 : forall c t,
  sat Any comp_th_2 (Wd c t) (fun r w' => r = OK ->
    let n := cs_hash (the_suite c) in
    exists t' th,
      w' = Wd (set_th_state TH_2 (set_th (blit (c_th c) th) (set_th_len n c))) (t' ++ t) /\
      hashed t' (cbor_seq [Bstr (if c_role c =? INITIATOR then peer_of c else pub_of c);
                           Bstr (th_of c)]) n th /\ zlen th = n).
Proof.
  intros c t. unfold comp_th_2, hash_into_th. repeat sy.
  all: fin; match goal with F : fits _ (enc_bstr (th_of _)) = _ |- _ => apply fits_some in F as [-> _] end;
    match goal with F : fits _ (enc_bstr _) = _ |- _ => apply fits_some in F as [-> _] end.
  all: do 2 eexists; split; [trx|]; split; [|now symmetry].
  all: cbn [cbor_seq flat_map]; rewrite app_nil_r, <- !enc_bstr_rfc; lift.
Qed.

(** PRK_2e. *)
Lemma ok_comp_prk_2e : forall c t,
  sat Any comp_prk_2e (Wd c t) (fun r w' => r = OK ->
    let n := cs_hash (the_suite c) in
    exists t' prk,
      w' = Wd (set_prk_state PRK_2E (set_prk (blit (c_prk c) prk) (set_prk_len n c))) (t' ++ t) /\
      extracted t' (th_of c) (secret_of c) prk /\ zlen prk = n /\
      c_th_state c = TH_2 /\ c_prk_state c = PRK_INVALID).
Proof.
  intros c t. unfold comp_prk_2e. repeat sy. fin.
  do 2 eexists. split; [trx|]. split; [eexists; keyed|]. repeat split; congruence.
Qed.

(** SALT and static-DH secrets. *)
Lemma ok_comp_salt_3e2m : forall n c t, 0 <= n < 2 ^ 32 ->
  sat Any (comp_salt_3e2m n) (Wd c t) (fun x w' => fst x = OK ->
    exists t', w' = Wd c (t' ++ t) /\
      expanded t' (prk_of c) (info SALT_3e2m (th_of c) n) n (snd x) /\ zlen (snd x) = n).
Proof.
  intros n c t Hn. unfold comp_salt_3e2m. repeat sy. cs.
  eapply sat_conseq; [apply ok_kdf; [apply reads_th|apply reads_prk]|]. intros [r out] w' H. cs.
  intro R. destruct (H R) as (t' & -> & A & B). rewrite u32_id in A by assumption. now exists t'.
Qed.
Lemma ok_comp_salt_4e3m : forall n c t, 0 <= n < 2 ^ 32 ->
  sat Any (comp_salt_4e3m n) (Wd c t) (fun x w' => fst x = OK ->
    exists t', w' = Wd c (t' ++ t) /\
      expanded t' (prk_of c) (info SALT_4e3m (th_of c) n) n (snd x) /\ zlen (snd x) = n).
Proof.
  intros n c t Hn. unfold comp_salt_4e3m. repeat sy. cs.
  eapply sat_conseq; [apply ok_kdf; [apply reads_th|apply reads_prk]|]. intros [r out] w' H. cs.
  intro R. destruct (H R) as (t' & -> & A & B). rewrite u32_id in A by assumption. now exists t'.
Qed.
Definition erase_priv (c : ctx) : ctx := set_dh_priv [] (set_dh_priv_len 0 c).
Lemma ok_agree_eph : forall pub n c t,
  sat Any (agree_eph pub n) (Wd c t) (fun x w' => fst x = OK ->
    exists t', w' = Wd (erase_priv c) (t' ++ t) /\ agreed t' (priv_of c) pub (snd x) /\
      zlen (snd x) = n).
Proof.
  intros. unfold agree_eph. repeat sy. fin.
  eexists. split; [trx|]. split; [eexists; keyed|assumption].
Qed.
Lemma ok_agree_static : forall cr n c t,
  sat Any (agree_static cr n) (Wd c t) (fun x w' => fst x = OK ->
    exists t', w' = Wd c (t' ++ t) /\ agreed_lt t' (cr_priv cr) (peer_of c) (snd x) /\
      zlen (snd x) = n).
Proof.
  intros. unfold agree_static. repeat sy. fin.
  eexists. split; [trx|]. split; [lift|assumption].
Qed.
(** The party that authenticates with static DH uses its long-term key, the other its
    ephemeral key (then erased). *)
Definition dh_own (own : bool) (cr : creds) (pub : bytes) (c : ctx) (t : list event) (g : bytes) : Prop :=
  if own then agreed_lt t (cr_priv cr) (peer_of c) g else agreed t (priv_of c) pub g.
Lemma dh_own_mono : forall own cr pub c g, mono (fun t => dh_own own cr pub c t g).
Proof. intros [|] cr pub c g; unfold dh_own; [apply agreed_lt_mono|apply agreed_mono]. Qed.

Lemma ok_comp_grx : forall cr pub n c t,
  sat Any (comp_grx cr pub n) (Wd c t) (fun x w' => fst x = OK ->
    let own := c_role c =? RESPONDER in
    exists t', w' = Wd (if own then c else erase_priv c) (t' ++ t) /\
      dh_own own cr pub c t' (snd x) /\ zlen (snd x) = n).
Proof.
  intros. unfold comp_grx. do 3 sy. sy.
  - apply Z.eqb_eq in X0. rewrite X0. apply ok_agree_eph.
  - sy. apply ok_agree_static.
Qed.
Lemma ok_comp_giy : forall cr pub n c t,
  sat Any (comp_giy cr pub n) (Wd c t) (fun x w' => fst x = OK ->
    let own := c_role c =? INITIATOR in
    exists t', w' = Wd (if own then c else erase_priv c) (t' ++ t) /\
      dh_own own cr pub c t' (snd x) /\ zlen (snd x) = n).
Proof.
  intros. unfold comp_giy. do 3 sy. sy.
  - apply ok_agree_static.
  - sy. apply ok_agree_eph.
Qed.

(** PRK_3e2m and PRK_4e3m. *)
Lemma ok_prk_static : forall salt_of gxx_of next c cg t (S G : list event -> bytes -> Prop),
  (forall y, mono (fun t => S t y)) -> (forall y, mono (fun t => G t y)) ->
  (forall t, sat Any (salt_of (cs_hash (the_suite c))) (Wd c t) (fun x w' => fst x = OK ->
     exists t', w' = Wd c (t' ++ t) /\ S t' (snd x))) ->
  (forall t, sat Any (gxx_of (cs_ecc (the_suite c))) (Wd c t) (fun x w' => fst x = OK ->
     exists t', w' = Wd cg (t' ++ t) /\ G t' (snd x))) ->
  sat Any (prk_static salt_of gxx_of next) (Wd c t) (fun r w' => r = OK ->
    let n := cs_hash (the_suite c) in
    exists t' prk,
      w' = Wd (set_prk_state next (set_prk (blit (c_prk cg) prk) (set_prk_len n cg))) (t' ++ t) /\
      zlen prk = n /\ exists salt g, S t' salt /\ G t' g /\ extracted t' salt g prk).
Proof.
  intros salt_of gxx_of next c cg t S G MS MG HS HG. unfold prk_static. repeat sy.
  eapply sat_conseq; [apply HS|]. intros [r salt] w' H0. csall. sy. bools.
  destruct (H0 eq_refl) as (t1 & -> & S1). repeat sy.
  eapply sat_conseq; [apply HG|]. intros [r g] w' H1. csall. sy. bools.
  destruct (H1 eq_refl) as (t2 & -> & G2). repeat sy. fin.
  do 2 eexists. split; [trx|]. split; [now symmetry|]. exists salt, g. split; [|split].
  - do 5 apply (mono_cons _ _ _ (MS _)). apply (mono_appr _ _ _ (MS _)), (mono_cons _ _ _ (MS _)).
    apply (mono_appl _ _ _ (MS _)), S1.
  - do 5 apply (mono_cons _ _ _ (MG _)). apply (mono_appl _ _ _ (MG _)), G2.
  - eexists. keyed.
Qed.

Lemma set_eta : forall c, set_prk (c_prk c) (set_prk_len (c_prk_len c)
  (set_dh_priv (c_dh_priv c) (set_dh_priv_len (c_dh_priv_len c) c))) = c.
Proof. destruct c; reflexivity. Qed.
Definition prk_post (next : Z) (st own : bool) (label : Z) (cr : creds) (pub : bytes) (c : ctx)
    (t : list event) (w' : world) : Prop :=
  let n := cs_hash (the_suite c) in
  exists t' p pl a b prk,
    w' = Wd (set_prk_state next (set_prk p (set_prk_len pl (set_dh_priv a (set_dh_priv_len b c)))))
            (t' ++ t) /\
    arr_read pl p = prk /\
    next_prk t' st label (prk_of c) (th_of c) n (fun t g => dh_own own cr pub c t g) prk /\
    pl = (if st then n else c_prk_len c) /\
    (if st && negb own then a = [] /\ b = 0 else a = c_dh_priv c /\ b = c_dh_priv_len c).
Lemma prk_post_refl : forall next own label cr pub c t,
  prk_post next false own label cr pub c t (Wd (set_prk_state next c) t).
Proof.
  intros. unfold prk_post. exists [], (c_prk c), (c_prk_len c), (c_dh_priv c), (c_dh_priv_len c), (prk_of c).
  rewrite set_eta. repeat split; reflexivity.
Qed.
Lemma prk_post_static : forall next own label cr pub c t t' prk salt g,
  zlen prk = cs_hash (the_suite c) ->
  expanded t' (prk_of c) (info label (th_of c) (cs_hash (the_suite c))) (cs_hash (the_suite c)) salt ->
  dh_own own cr pub c t' g -> extracted t' salt g prk ->
  let cg := if own then c else erase_priv c in
  prk_post next true own label cr pub c t
    (Wd (set_prk_state next (set_prk (blit (c_prk cg) prk) (set_prk_len (cs_hash (the_suite c)) cg))) (t' ++ t)).
Proof.
  intros. unfold prk_post.
  exists t', (blit (c_prk cg) prk), (cs_hash (the_suite c)),
    (if own then c_dh_priv c else []), (if own then c_dh_priv_len c else 0), prk.
  split; [f_equal; unfold cg; destruct own; destruct c; reflexivity|].
  split; [now apply arr_read_blit|]. split; [exists salt, g; auto|].
  split; [reflexivity|]. destruct own; split; reflexivity.
Qed.

Lemma ok_comp_prk_3e2m : forall cr pub c t, 0 <= cs_hash (the_suite c) < 2 ^ 32 ->
  sat Any (comp_prk_3e2m cr pub) (Wd c t) (fun r w' => r = OK ->
    0 <= c_chosen_method c <= 3 /\
    prk_post PRK_3E2M (responder_static (c_chosen_method c)) (c_role c =? RESPONDER) SALT_3e2m
             cr pub c t w').
Proof.
  intros cr pub c t Hn. unfold comp_prk_3e2m. do 4 sy. cs. sy.
  - repeat sy. fin. assert (responder_static (c_chosen_method c) = false) as ->.
    { unfold responder_static. lia. }
    split; [lia|apply prk_post_refl].
  - sy. assert (responder_static (c_chosen_method c) = true) as -> by (unfold responder_static; lia).
    eapply sat_conseq; [apply (ok_prk_static _ _ _ c (if c_role c =? RESPONDER then c else erase_priv c)
      t (fun t y => expanded t (prk_of c) (info SALT_3e2m (th_of c) (cs_hash (the_suite c))) (cs_hash (the_suite c)) y)
        (fun t g => dh_own (c_role c =? RESPONDER) cr pub c t g))|].
    + intro. apply expanded_mono.
    + intro. apply dh_own_mono.
    + intro t0. eapply sat_conseq; [now apply ok_comp_salt_3e2m|]. intros x w' H R.
      destruct (H R) as (t' & A & B & _). now exists t'.
    + intro t0. eapply sat_conseq; [now apply ok_comp_grx|]. intros x w' H R.
      destruct (H R) as (t' & A & B & _). now exists t'.
    + intros r w' H R. destruct (H R) as (t' & prk & -> & L & salt & g & A & B & C).
      split; [lia|]. now apply prk_post_static with (salt := salt) (g := g).
Qed.
Lemma ok_comp_prk_4e3m : forall cr pub c t, 0 <= cs_hash (the_suite c) < 2 ^ 32 ->
  sat Any (comp_prk_4e3m cr pub) (Wd c t) (fun r w' => r = OK ->
    0 <= c_chosen_method c <= 3 /\
    prk_post PRK_4E3M (initiator_static (c_chosen_method c)) (c_role c =? INITIATOR) SALT_4e3m
             cr pub c t w').
Proof.
  intros cr pub c t Hn. unfold comp_prk_4e3m. do 4 sy. cs. sy.
  - repeat sy. fin. assert (initiator_static (c_chosen_method c) = false) as ->.
    { unfold initiator_static. lia. }
    split; [lia|apply prk_post_refl].
  - sy. assert (initiator_static (c_chosen_method c) = true) as -> by (unfold initiator_static; lia).
    eapply sat_conseq; [apply (ok_prk_static _ _ _ c (if c_role c =? INITIATOR then c else erase_priv c)
      t (fun t y => expanded t (prk_of c) (info SALT_4e3m (th_of c) (cs_hash (the_suite c))) (cs_hash (the_suite c)) y)
        (fun t g => dh_own (c_role c =? INITIATOR) cr pub c t g))|].
    + intro. apply expanded_mono.
    + intro. apply dh_own_mono.
    + intro t0. eapply sat_conseq; [now apply ok_comp_salt_4e3m|]. intros x w' H R.
      destruct (H R) as (t' & A & B & _). now exists t'.
    + intro t0. eapply sat_conseq; [now apply ok_comp_giy|]. intros x w' H R.
      destruct (H R) as (t' & A & B & _). now exists t'.
    + intros r w' H R. destruct (H R) as (t' & prk & -> & L & salt & g & A & B & C).
      split; [lia|]. now apply prk_post_static with (salt := salt) (g := g).
Qed.
End Steps.

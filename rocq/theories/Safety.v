(** Vocabulary of the memory-safety claims: what the application has to respect, and which
    faults a call may still run into.  No code of /repo is modelled here. *)
From Verif Require Import Monad Api Common History Spec Rfc Wire Uses Received Policy.

Section Safety.
Context {E : env}.

(** *** Build configuration and cipher suites *)
(** The compile-time limits the library's arithmetic tolerates.  Two or three EAD tokens: the
    receive path stores up to three in an array of one more than this limit, the send path
    copies up to this limit into an array of three. *)
Record limits : Prop := Lim {
  lm_suites : 1 <= cf_max_suites;
  lm_cid : 0 <= cf_max_cid <= 65535;
  lm_ecc : 0 <= cf_max_ecc;
  lm_mac : 0 <= cf_max_mac <= 65535;
  lm_kid : 0 <= cf_max_kid;
  lm_ead : 2 <= cf_max_ead <= 3 }.
(** A cipher suite the context's arrays can hold. *)
Record suite_fits (s : csuite) : Prop := SF {
  sf_key : 0 <= cs_key s; sf_tag : 0 <= cs_tag s; sf_iv : 0 <= cs_iv s;
  sf_hash : 0 <= cs_hash s <= cf_max_mac; sf_mac : 0 <= cs_mac s;
  sf_ecc : 0 <= cs_ecc s <= cf_max_ecc; sf_sign : 0 <= cs_sign s }.

(** *** Callbacks *)
(** An EAD token whose length is that of its value. *)
Definition tok_fits (t : token) : Prop :=
  match zs_ptr (tk_val t) with
  | Some b => 0 <= zs_len (tk_val t) <= zlen b
  | None => zs_len (tk_val t) = 0
  end.
(** Credentials whose union member is the one the label names, within its arrays. *)
Definition creds_fit (cr : creds) : Prop :=
  (cr_label cr = COSE_ANY -> exists i comp e ce ca, cr_body cr = CAny i comp e ce ca /\
     (comp = true -> e = ENC_INT -> zlen ce <= 4) /\
     (comp = true -> e = ENC_BSTR -> zlen ce <= cf_max_kid + 1)) /\
  (cr_label cr = COSE_KID -> exists ca ic e ki kb, cr_body cr = CKid ca ic e ki kb /\
     zlen kb <= cf_max_kid + 1) /\
  (cr_label cr = COSE_CHAIN -> exists l, cr_body cr = CChain l) /\
  (cr_label cr = COSE_HASH -> exists ct fp e ai ab, cr_body cr = CHash ct fp e ai ab).
(** Callbacks write no more than the room they are given, and hand out well-formed
    credentials and EAD tokens. *)
Record abides : Prop := Abd {
  ab_mkpair : forall f t kid a b, 0 <= a -> 0 <= b ->
    zlen (snd (fst (o_mkpair f t kid a b))) <= a /\ zlen (snd (o_mkpair f t kid a b)) <= b;
  ab_agree : forall f t kid p n, 0 <= n -> zlen (snd (o_agree f t kid p n)) <= n;
  ab_sign : forall f t kid i n, 0 <= n -> zlen (snd (o_sign f t kid i n)) <= n;
  ab_extract : forall f t kid s n, 0 <= n -> zlen (snd (o_extract f t kid s n)) <= n;
  ab_expand : forall f t kid i n, 0 <= n -> zlen (snd (o_expand f t kid i n)) <= n;
  ab_encrypt : forall f t kid iv a p n, 0 <= n -> zlen (snd (o_encrypt f t kid iv a p n)) <= n;
  ab_decrypt : forall f t kid iv a p n, 0 <= n -> zlen (snd (o_decrypt f t kid iv a p n)) <= n;
  ab_hash : forall f t i n, 0 <= n -> zlen (snd (o_hash f t i n)) <= n;
  ab_fetch : forall f t cr, o_fetch f t = (OK, cr) -> creds_fit cr;
  ab_cverify : forall f t cr cr' pub, creds_fit cr -> o_cverify f t cr = (OK, cr', pub) -> creds_fit cr';
  ab_compose : forall f t m n, 0 <= n ->
    zlen (snd (o_compose f t m n)) <= n /\ Forall tok_fits (snd (o_compose f t m n)) }.

(** *** Use *)
(** All mandatory callbacks are bound. *)
Definition bound (c : ctx) : Prop :=
  keys_complete (c_keys c) /\ crypto_complete (c_crypto c) /\ cred_complete (c_cred c).
(** What a call asks of its caller: suites that fit, callbacks bound before the first message
    or export, buffer sizes that are sizes. *)
Definition fit_call (a : api) (c : ctx) : Prop :=
  match a with
  | ASuites (Some l) => Forall suite_fits l
  | AExport _ _ n => bound c /\ 0 <= n
  | AOscore _ n1 n2 n3 n4 => bound c /\ 0 <= n1 /\ 0 <= n2
  | AKeyUpdate _ _ => bound c
  | _ => match kind a with Some _ => bound c | None => True end
  end.
(** A history in which every call is made that way. *)
Fixpoint careful (l : list api) (w : world) : Prop :=
  match l with
  | [] => True
  | a :: l' => fit_call a (w_ctx w) /\ forall r w', do_api a w = Ret r w' -> careful l' w'
  end.
(** A state such a program can be in, whatever happened before it initialised the context. *)
Definition careful_world (w : world) : Prop :=
  exists w0 l rs, reachable w0 /\ careful (AInit :: l) w0 /\ runs (AInit :: l) w0 = Ret rs w.
(** An allocator on the heap that refuses more than half of the address space. *)
Definition heap : Prop :=
  cf_stack = None /\ forall t b n, 2 ^ 63 <= n -> o_alloc t b n = false.

(** *** Faults that remain *)
(** The bytes begin with the four mandatory items of message_1. *)
Definition opens_message_1 (msg : bytes) : Prop :=
  exists method suites gx ci rest,
    - 2 ^ 31 <= method < 2 ^ 31 /\ 1 <= zlen suites <= 3 /\
    Forall (fun v => - 2 ^ 31 <= v < 2 ^ 31) suites /\ zlen gx < 2 ^ 64 /\ cid_within (2 ^ 64 - 1) ci /\
    msg = cbor_seq [Num method; suites_item suites; Bstr gx; cid_item ci] ++ rest.
(** The bytes begin with a byte string of at least [n] bytes. *)
Definition opens_bstr (n : Z) (msg : bytes) : Prop :=
  exists b rest, msg = cbor (Bstr b) ++ rest /\ n <= zlen b < 2 ^ 64.
(** Calls that use working buffers. *)
Definition buffers (a : api) : bool :=
  match a with
  | AM1Process _ _ => false
  | AExport _ _ _ | AKeyUpdate _ _ | AOscore _ _ _ _ _ => true
  | _ => match kind a with Some _ => true | None => false end
  end.
(** The faults call [a] may run into in a context [c]:
    - a message_1 that is not one may be read beyond its end or through NULL;
    - a message_2 without room for G_Y may be read beyond its end;
    - a key identifier in messages 2 and 3 may overrun its array;
    - an EAD item in messages 2 and 3 may be read beyond its end;
    - composing message_3 may overrun the caller's buffer;
    - where working buffers are variable-length arrays, one may have no or too much size. *)
Definition may (a : api) (c : ctx) (u : ub) : Prop :=
  match u with
  | UbStrNull => match a with AM1Process _ msg => ~ opens_message_1 msg | _ => False end
  | UbStrRead =>
    match a with
    | AM1Process _ msg => ~ opens_message_1 msg
    | AM2Process _ msg => ~ opens_bstr (cs_ecc (the_suite c)) msg
    | _ => False
    end
  | UbKidWrite | UbEadRead => match a with AM2Process _ _ | AM3Process _ _ => True | _ => False end
  | UbMsg3Write => match a with AM3Compose _ _ => True | _ => False end
  | UbVla => cf_stack <> None /\ buffers a = true
  | _ => False
  end.

(** *** Truncated messages *)
(** No byte string of [n] bytes or more opens the message. *)
Definition short_of (n : Z) (msg : bytes) : Prop := forall b, carries msg [Bstr b] -> zlen b < n.

(** *** The ephemeral private key *)
(** The context holds none. *)
Definition no_private_key (c : ctx) : Prop := c_dh_priv c = [] /\ c_dh_priv_len c = 0.
End Safety.

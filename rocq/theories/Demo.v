(** A concrete environment and honest runs, used only by the examples beside the theorems.

    No code of /repo is modelled here.  Key handles are the key type followed by the key, so
    the callbacks need no history.  The "cryptography" is a toy that satisfies the laws the
    theorems ask for (Diffie-Hellman symmetry, decryption inverts encryption). *)
From Verif Require Import Monad Api Common Msg1 Msg2 Msg3 Msg4 Exporter Helpers History Spec Facts.

(** Toy primitives. *)
Definition mix (seed : Z) (input : bytes) : Z :=
  fold_left (fun a b => (a * 31 + b * b + seed) mod 251) input (seed + 7).
Definition mixes (n : Z) (input : bytes) : bytes :=
  map (fun i => mix (Z.of_nat i) input) (seq 0 (Z.to_nat n)).
Definition toy_pub (priv : bytes) : bytes := map (fun b => (5 * b) mod 256) priv.
Fixpoint toy_mul (a b : bytes) : bytes :=
  match a, b with x :: a', y :: b' => ((x * y) mod 256) :: toy_mul a' b' | _, _ => [] end.
Definition toy_tag (key nonce aad ptxt : bytes) : bytes :=
  mixes 8 (key ++ nonce ++ aad ++ ptxt).

(** The two parties, 1 (initiator) and 2 (responder): ephemeral and long-term keys. *)
Definition eph_of (p : Z) : bytes := map (fun i => (Z.of_nat i * 3 + p * 11 + 1) mod 256) (seq 0 32).
Definition lt_of (p : Z) : bytes := map (fun i => (Z.of_nat i * 7 + p * 13 + 2) mod 256) (seq 0 32).
Definition cert_of (p : Z) : bytes := toy_pub (lt_of p).
(** Credentials as an x5chain, a kid integer, or a kid byte string. *)
Definition chain_creds (p : Z) : creds := CR (KT_SIGNATURE :: lt_of p) COSE_CHAIN (CChain [cert_of p]).
Definition kid_creds (p : Z) : creds :=
  CR (KT_SIGNATURE :: lt_of p) COSE_KID (CKid (cert_of p) false ENC_INT p []).

Definition demo_cverify (cr : creds) : Z * creds * bytes :=
  match cr_body cr with
  | CChain [b] => (OK, cr, b)
  | CKid _ _ e k _ => (OK, CR [] COSE_KID (CKid (cert_of k) false e k []), cert_of k)
  | _ => (-1, cr, [])
  end.

(** Parameters of an environment that examples vary. *)
Record knobs := Kn { k_stack : option Z; k_alloc : list event -> buf -> Z -> bool;
                     k_creds : Z -> creds; k_toks : Z -> Z -> list token }.
Definition knobs0 : knobs := Kn None (fun _ _ _ => true) chain_creds (fun _ _ => []).

Definition demo_env (k : knobs) : env :=
  Env 3 7 64 64 3 3 8 10 true (k_stack k) 256
    (k_alloc k)
    (fun _ _ kt key => (OK, kt :: key))
    (fun _ _ _ => OK)
    (fun p _ _ _ _ => (OK, eph_of p, toy_pub (eph_of p)))
    (fun _ _ kid peer _ => (OK, toy_mul (tl kid) peer))
    (fun _ _ kid input n => (OK, mixes 64 (toy_pub (tl kid) ++ input)))
    (fun _ _ kid input sign => if beqb sign (mixes 64 (tl kid ++ input)) then OK else -1)
    (fun _ _ kid salt n => (OK, mixes n (tl kid ++ salt)))
    (fun _ _ kid info n => (OK, mixes n (tl kid ++ info)))
    (fun _ _ kid nonce aad ptxt _ => (OK, ptxt ++ toy_tag (tl kid) nonce aad ptxt))
    (fun _ _ kid nonce aad ctxt _ =>
       let p := take (zlen ctxt - 8) ctxt in
       if beqb (drop (zlen ctxt - 8) ctxt) (toy_tag (tl kid) nonce aad p) then (OK, p) else (-1, []))
    (fun _ _ input n => (OK, mixes n input))
    (fun p _ => (OK, k_creds k p))
    (fun _ _ cr => demo_cverify cr)
    (fun p _ msg _ => (OK, k_toks k p msg))
    (fun _ _ _ _ => OK).

(** Cipher suite 2 of RFC 9528. *)
Definition suite2 : csuite := CS 2 16 8 13 32 8 32 64.
Definition suite3 : csuite := CS 3 16 16 13 32 16 32 64.
Definition demo_cid (p : Z) : conn_id := if p =? 1 then CID CID_INT (-5) [] else CID CID_BSTR 0 [1; 2; 3].
Definition demo_crypto (p : Z) : crypto_fns :=
  CF (Some p) (Some p) (Some p) (Some p) (Some p) (Some p) (Some p) (Some p) (Some p).
(** Configuration calls of party [p]. *)
Definition setup (p meth : Z) : list api :=
  [AInit; AMethods (Some [meth]); ASuites (Some [suite2]); ACid (Some (demo_cid p));
   ABindKeys (Some (KF (Some p) (Some p))); ABindCrypto (Some (demo_crypto p));
   ABindCred (Some (RF (Some p) (Some p)))].
Definition setup_ead (p meth : Z) : list api :=
  setup p meth ++ [ABindEad (Some (EF (Some p) (Some p)))].

(** Last output of a history and the world it leaves. *)
Definition last_out (r : res (list result)) : Z * bytes :=
  match r with
  | Ret rs _ => match last rs (AInit, (-1, ONone)) with
                | (_, (v, OBytes b)) => (v, b) | (_, (v, _)) => (v, []) end
  | Ub _ => (-999, [])
  end.
Definition world_of (r : res (list result)) (d : world) : world :=
  match r with Ret _ w => w | Ub _ => d end.
Definition blank : world := Wd ctx0 [].
Definition vals (r : res (list result)) : list Z :=
  match r with Ret rs _ => map rval rs | Ub _ => [-999] end.

(** An honest exchange of messages 1-3: the two histories. *)
Section Honest.
Context {E : env}.
Variables (si sr : list api).
Definition h_i1 : list api := si ++ [AM1Compose true 400].
Definition h_m1 : bytes := snd (last_out (runs h_i1 blank)).
Definition h_r1 : list api := sr ++ [AM1Process true h_m1].
Definition h_r2 : list api := h_r1 ++ [AM2Compose true 400].
Definition h_m2 : bytes := snd (last_out (runs h_r2 blank)).
Definition h_i2 : list api := h_i1 ++ [AM2Process true h_m2].
Definition h_i3 : list api := h_i2 ++ [AM3Compose true 400].
Definition h_m3 : bytes := snd (last_out (runs h_i3 blank)).
Definition h_r3 : list api := h_r2 ++ [AM3Process true h_m3].
End Honest.

(** A frame written for the identifier -1 is not readable, whatever message follows. *)
Lemma neg_cid_fails : forall msg, exists r x', @extract_connection_id (demo_env knobs0)
  (EX (Some (take 1 (blit (zeros 8) [255]) ++ msg)) (1 + zlen msg) None 0 false false cid0) = inl (r, x') /\ r <> OK.
Proof.
  intro msg. pose proof (zlen_nonneg _ msg). change (take 1 (blit (zeros 8) [255]) ++ msg) with (255 :: msg).
  unfold extract_connection_id. cbn [ex_buf ex_size]. replace (1 + zlen msg =? 0) with false by lia.
  rewrite zlen_cons. replace (1 + zlen msg <? 1 + zlen msg) with false by lia.
  rewrite take_all by (rewrite zlen_cons; lia). eexists. eexists. split; [reflexivity|discriminate].
Qed.

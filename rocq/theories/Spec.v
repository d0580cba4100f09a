(** Small vocabulary the property statements use, independent of the proofs. *)
From Verif Require Import Monad History.

(** A context without any session content: every field but [is_init] is zero, empty or NULL. *)
Definition wiped (c : ctx) : Prop :=
  c_chosen_method c = 0 /\ c_methods c = [] /\ c_method_len c = 0 /\ c_csuite_idx c = 0 /\
  c_csuites c = [] /\ c_csuite_len c = 0 /\ c_peer_csuites c = [] /\ c_peer_csuite_len c = 0 /\
  c_cid c = CID 0 0 [] /\ c_peer_cid c = CID 0 0 [] /\
  c_dh_pub c = [] /\ c_dh_pub_len c = 0 /\ c_dh_priv c = [] /\ c_dh_priv_len c = 0 /\
  c_dh_peer c = [] /\ c_dh_peer_len c = 0 /\ c_dh_secret c = [] /\ c_dh_secret_len c = 0 /\
  c_oscore_ok c = false /\ c_status c = SM_START /\ c_message c = 0 /\ c_role c = 0 /\
  c_th_state c = TH_INVALID /\ c_th c = [] /\ c_th_len c = 0 /\
  c_prk_state c = PRK_INVALID /\ c_prk c = [] /\ c_prk_len c = 0 /\
  c_ead c = EF None None /\ c_keys c = KF None None /\
  c_crypto c = CF None None None None None None None None None /\ c_cred c = RF None None /\
  c_tokens c = [] /\ c_user c = None /\ c_error c = 0.

(** Callback tables with no NULL entry. *)
Definition keys_complete (k : key_fns) : Prop := f_import k <> None /\ f_destroy k <> None.
Definition crypto_complete (k : crypto_fns) : Prop :=
  f_mkpair k <> None /\ f_agree k <> None /\ f_sign k <> None /\ f_verify k <> None /\
  f_extract k <> None /\ f_expand k <> None /\ f_encrypt k <> None /\ f_decrypt k <> None /\
  f_hash k <> None.
Definition cred_complete (k : cred_fns) : Prop := f_fetch k <> None /\ f_cverify k <> None.

(** Calls that set or bind something. *)
Definition is_config (a : api) : bool :=
  match a with
  | AMethods _ | ASuites _ | ACid _ | AUser _ | ABindEad _ | ABindKeys _ | ABindCrypto _
  | ABindCred _ => true
  | _ => false
  end.

(** The eight message calls. *)
Inductive mkind := M1c | M1p | M2c | M2p | M3c | M3p | M4c | M4p.
Definition kind (a : api) : option mkind :=
  match a with
  | AM1Compose _ _ => Some M1c | AM1Process _ _ => Some M1p
  | AM2Compose _ _ => Some M2c | AM2Process _ _ => Some M2p
  | AM3Compose _ _ => Some M3c | AM3Process _ _ => Some M3p
  | AM4Compose _ _ => Some M4c | AM4Process _ _ => Some M4p
  | _ => None
  end.
(** Protocol state in which each may run: status, transcript-hash state, PRK state. *)
Definition required (k : mkind) : Z * Z * Z :=
  match k with
  | M1c | M1p => (SM_START, TH_INVALID, PRK_INVALID)
  | M2c => (SM_RECEIVED_M1, TH_1, PRK_INVALID)
  | M2p => (SM_WAIT_M2, TH_1, PRK_INVALID)
  | M3c => (SM_VERIFIED_M2, TH_3, PRK_3E2M)
  | M3p => (SM_WAIT_M3, TH_3, PRK_3E2M)
  | M4c | M4p => (SM_COMPLETED, TH_4, PRK_4E3M)
  end.
Definition permitted (k : mkind) (c : ctx) : Prop :=
  (c_status c, c_th_state c, c_prk_state c) = required k.
(** Arguments a message call accepts at all: no NULL pointer, no empty buffer or message. *)
Definition args_ok (a : api) : Prop :=
  match a with
  | AM1Compose nn n | AM2Compose nn n | AM3Compose nn n | AM4Compose nn n => nn = true /\ n <> 0
  | AM1Process nn m | AM2Process nn m | AM3Process nn m | AM4Process nn m => nn = true /\ m <> []
  | _ => True
  end.

(** Results of a history. *)
Definition result := (api * (Z * out))%type.
Definition rcall (r : result) : api := fst r.
Definition rval (r : result) : Z := fst (snd r).
(** Message 1-3 calls that succeeded, in order. *)
Definition succeeded (rs : list result) : list mkind :=
  flat_map (fun r => match kind (rcall r) with
                     | Some M4c | Some M4p | None => []
                     | Some k => if rval r =? OK then [k] else []
                     end) rs.

(** Open key handles: successful imports under the handle minus destructions. *)
Fixpoint handles (k : bytes) (t : list event) : Z :=
  match t with
  | [] => 0
  | EvImport _ _ r kid :: t' =>
      handles k t' + (if (r =? OK) && beqb k kid then 1 else 0)
  | EvDestroy kid _ :: t' => handles k t' - (if beqb k kid then 1 else 0)
  | _ :: t' => handles k t'
  end.

(** The two ways to complete a handshake. *)
Definition full_handshake (l : list mkind) : Prop :=
  l = [M1c; M2p; M3c] \/ l = [M1p; M2c; M3p].

(** Permission for an OSCORE export after the results [rs] (oldest first): given by a completed
    handshake and by a key update, used up by a successful export. *)
Definition arms (b : bool) (r : result) : bool :=
  if rval r =? OK then
    match rcall r with
    | AM3Compose _ _ | AM3Process _ _ | AKeyUpdate _ _ => true
    | AOscore _ _ _ _ _ => false
    | _ => b
    end
  else b.
Definition armed (rs : list result) : bool := fold_left arms rs false.
Definition is_oscore (a : api) : bool := match a with AOscore _ _ _ _ _ => true | _ => false end.

Section Quiet.
Context {E : env}.
(** A message call that gets past its guards in world [w]. *)
Definition past_guards (a : api) (w : world) : Prop :=
  exists k, kind a = Some k /\ args_ok a /\ permitted k (w_ctx w).
(** A history in which no message call gets past its guards and the context is not
    initialised or deinitialised. *)
Fixpoint quiet (l : list api) (w : world) : Prop :=
  match l with
  | [] => True
  | a :: l' => a <> AInit /\ a <> ADeinit /\ ~ past_guards a w /\
               match do_api a w with Ret _ w' => quiet l' w' | Ub _ => True end
  end.
End Quiet.

(** Worlds some client program can bring about, starting from arbitrary memory [c]. *)
Definition reachable {E : env} (w : world) : Prop :=
  exists c l rs, runs l (Wd c []) = Ret rs w.

(** Calls that need a live session: the eight message calls, key update, OSCORE export. *)
Definition needs_session (a : api) : Prop :=
  kind a <> None \/ match a with AKeyUpdate _ _ | AOscore _ _ _ _ _ => True | _ => False end.

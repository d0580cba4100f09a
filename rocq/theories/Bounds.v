(** Sizes of the arrays in the public structures.  Specification only: no code of /repo is
    modelled here; the sizes are those declared in include/edhoc_context.h and
    include/edhoc_credentials.h. *)
From Verif Require Import Monad Exporter History.

Section Bounds.
Context {E : env}.
(** What the application configured and what a peer sent lies within the arrays of the context. *)
Record context_fits (c : ctx) : Prop := CtxFits {
  cx_methods : zlen (c_methods c) <= METHOD_MAX;
  cx_suites : zlen (c_csuites c) <= cf_max_suites;
  cx_peer_suites : zlen (c_peer_csuites c) <= cf_max_suites;
  cx_cid : cid_type (c_cid c) = CID_BSTR -> zlen (cid_bstr (c_cid c)) <= cf_max_cid;
  cx_peer_cid : zlen (cid_bstr (c_peer_cid c)) <= cf_max_cid + 1 }.
(** A credential identifier as handed to the application for verification. *)
Definition names_within (cr : creds) : Prop :=
  match cr_body cr with
  | CKid _ _ _ _ kb => zlen kb <= cf_max_kid + 1
  | CChain l => zlen l <= cf_max_certs
  | CHash _ _ _ _ ab => zlen ab <= cf_max_alg + 1
  | CAny _ _ _ _ _ | CNone => True
  end.
Definition asked_within (e : event) : Prop :=
  match e with EvCredVerify cr _ _ _ => names_within cr | _ => True end.
(** What a call hands back lies within the buffers whose sizes the caller passed. *)
Definition sizes_ok (a : api) : Prop :=
  match a with
  | AExport _ _ n => 0 <= n
  | AOscore _ n1 n2 n3 n4 => 0 <= n1 /\ 0 <= n2 /\ 0 <= n3 /\ 0 <= n4
  | AErrSuites _ n p => 0 <= n /\ 0 <= p
  | _ => True
  end.
Definition fits_caller (a : api) (o : out) : Prop :=
  match a, o with
  | AExport _ _ n, OBytes b => zlen b <= n
  | AOscore _ n1 n2 n3 n4, OOscore x =>
    zlen (os_secret x) <= n1 /\ zlen (os_salt x) <= n2 /\ zlen (os_sid x) <= n3 /\ zlen (os_rid x) <= n4
  | AErrSuites _ n p, OSuites x y =>
    (forall l, x = Some l -> zlen l <= n) /\ (forall l, y = Some l -> zlen l <= p)
  | _, _ => True
  end.
End Bounds.

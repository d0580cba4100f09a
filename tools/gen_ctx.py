#!/usr/bin/env python3
"""Writes rocq/theories/Ctx.v: the context record and its field setters."""
F = [
 ("c_chosen_method","Z","chosen_method"),
 ("c_methods","list Z","method[] (written prefix)"),
 ("c_method_len","Z","method_len"),
 ("c_csuite_idx","Z","chosen_csuite_idx"),
 ("c_csuites","list csuite","csuite[] (written prefix)"),
 ("c_csuite_len","Z","csuite_len"),
 ("c_peer_csuites","list Z","peer_csuite[].value (written prefix)"),
 ("c_peer_csuite_len","Z","peer_csuite_len"),
 ("c_cid","conn_id","cid"),
 ("c_peer_cid","conn_id","peer_cid"),
 ("c_dh_pub","bytes","dh_pub_key[] (written prefix)"),
 ("c_dh_pub_len","Z","dh_pub_key_len"),
 ("c_dh_priv","bytes","dh_priv_key[] (written prefix)"),
 ("c_dh_priv_len","Z","dh_priv_key_len"),
 ("c_dh_peer","bytes","dh_peer_pub_key[] (written prefix)"),
 ("c_dh_peer_len","Z","dh_peer_pub_key_len"),
 ("c_dh_secret","bytes","dh_secret[] (written prefix)"),
 ("c_dh_secret_len","Z","dh_secret_len"),
 ("c_is_init","bool","is_init"),
 ("c_oscore_ok","bool","is_oscore_export_allowed"),
 ("c_status","Z","status"),
 ("c_message","Z","message"),
 ("c_role","Z","role"),
 ("c_th_state","Z","th_state"),
 ("c_th","bytes","th[] (written prefix)"),
 ("c_th_len","Z","th_len"),
 ("c_prk_state","Z","prk_state"),
 ("c_prk","bytes","prk[] (written prefix)"),
 ("c_prk_len","Z","prk_len"),
 ("c_ead","ead_fns","ead"),
 ("c_keys","key_fns","keys"),
 ("c_crypto","crypto_fns","crypto"),
 ("c_cred","cred_fns","cred"),
 ("c_tokens","list token","ead_token[] up to nr_of_ead_tokens"),
 ("c_user","option Z","user_ctx"),
 ("c_error","Z","error_code"),
]
o=[]
o.append('''(** GENERATED by tools/gen_ctx.py: [struct edhoc_context] and its field setters.

    Models /repo/include/edhoc_context.h 228-336.  Enumerations are their C values.  An
    array field holds the prefix written so far; the rest of the array is zero, because the
    context is zero-initialised by edhoc_context_init (library/edhoc.c 41-43). *)
From Verif Require Import Bytes Cbor CborGen Values.

Record ctx := Ctx {''')
o.append(";\n".join("  %s : %s (* %s *)"%f for f in F))
o.append("}.\n")
names=[f[0] for f in F]
for (n,t,_) in F:
    o.append("Definition set_%s (v : %s) (c : ctx) : ctx :=\n  Ctx %s."%(n[2:],t," ".join("v" if m==n else "(%s c)"%m for m in names)))
zero={"Z":"0","bool":"false","bytes":"[]","conn_id":"cid0","ead_fns":"(EF None None)","key_fns":"(KF None None)",
 "crypto_fns":"(CF None None None None None None None None None)","cred_fns":"(RF None None)","option Z":"None"}
def z(t): return "[]" if t.startswith("list") else zero[t]
o.append("\n(** The all-zero context. *)\nDefinition ctx0 : ctx :=\n  Ctx %s."%" ".join(z(t) for (_,t,_) in F))
o.append("\nLtac ctx_unfold := cbv [%s %s] in *."%(" ".join("set_"+n[2:] for n in names)," ".join(names)))
open("/verif/rocq/theories/Ctx.v","w").write("\n".join(o)+"\n")

(** Several contexts in one process.  The code keeps no state of its own: there is no mutable
    variable of static storage duration in /repo/library, so an API call works on the one
    context it is given and on what the callbacks answer.  The callbacks are shared: their
    answers may depend on everything any context asked before.

    A schedule is a list of calls, each with the number of the context it is made on.  Calls
    are interleaved as a whole, they do not overlap.  No code of /repo is added here. *)
From Verif Require Import Monad Api Common Msg1 Msg2 Msg3 Msg4 Exporter History.

(** The same callbacks and configuration, where an application that has seen the history [t]
    is answered as it would be after [phi t]. *)
Definition heard (phi : list event -> list event) (E : env) : env :=
  Env cf_max_suites cf_max_cid cf_max_ecc cf_max_mac cf_max_ead cf_max_certs cf_max_kid
      cf_max_alg cf_canon cf_stack cf_sizeof_mac
      (fun t => o_alloc (phi t)) (fun f t => o_import f (phi t)) (fun f t => o_destroy f (phi t))
      (fun f t => o_mkpair f (phi t)) (fun f t => o_agree f (phi t)) (fun f t => o_sign f (phi t))
      (fun f t => o_verify f (phi t)) (fun f t => o_extract f (phi t)) (fun f t => o_expand f (phi t))
      (fun f t => o_encrypt f (phi t)) (fun f t => o_decrypt f (phi t)) (fun f t => o_hash f (phi t))
      (fun f t => o_fetch f (phi t)) (fun f t => o_cverify f (phi t)) (fun f t => o_compose f (phi t))
      (fun f t => o_process f (phi t)).

(** What belongs to context [i] in a list whose items carry a context number. *)
Definition own {A} (i : nat) (l : list (nat * A)) : list A :=
  map snd (filter (fun p => Nat.eqb (fst p) i) l).

(** All contexts, and every event of the process with the context it was made for, newest
    first. *)
Record system := Sys { s_ctx : nat -> ctx; s_log : list (nat * event) }.
Inductive outcome :=
| Finished (rs : list (nat * (api * (Z * out)))) (s : system)
| Undefined (i : nat) (u : ub).

Section Interleave.
Context {E : env}.

(** One call on context [i]: the callbacks see the history of the whole process, the other
    contexts stay as they are. *)
Definition call_on (i : nat) (a : api) (s : system) : (Z * out) * system + ub :=
  match do_api a (Wd (s_ctx s i) (map snd (s_log s))) with
  | Ret r w => inl (r, Sys (fun j => if Nat.eqb j i then w_ctx w else s_ctx s j)
      (map (pair i) (firstn (length (w_tr w) - length (s_log s)) (w_tr w)) ++ s_log s))
  | Ub u => inr u
  end.
Fixpoint schedule (l : list (nat * api)) (s : system) : outcome :=
  match l with
  | [] => Finished [] s
  | (i, a) :: l' =>
    match call_on i a s with
    | inr u => Undefined i u
    | inl (r, s') =>
      match schedule l' s' with
      | Undefined j u => Undefined j u
      | Finished rs s'' => Finished ((i, (a, r)) :: rs) s''
      end
    end
  end.
End Interleave.

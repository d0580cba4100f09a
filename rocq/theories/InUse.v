(** Contexts some client program can bring about from [edhoc_context_init] on.

    Specification only: no code of /repo is modelled here. *)
From Verif Require Import Monad Api History Spec.

(** Between the calls anything may have happened elsewhere on the device: the trace [t] before a
    call is that of any client program. *)
Inductive in_use {E : env} : ctx -> Prop :=
| used_init : forall c t r c' t',
    do_api AInit (Wd c t) = Ret r (Wd c' t') -> in_use c'
| used_call : forall c c0 t a r c' t', in_use c -> reachable (Wd c0 t) ->
    do_api a (Wd c t) = Ret r (Wd c' t') -> in_use c'.

(** Configuration calls by what they set.  Specification only: no code of /repo is modelled here. *)
From Verif Require Import Monad History Spec.

(** Which setting a configuration call is about. *)
Inductive setting := SMethods | SSuites | SCid | SUser | SEad | SKeys | SCrypto | SCred.
Definition about (s : setting) (a : api) : bool :=
  match s, a with
  | SMethods, AMethods _ | SSuites, ASuites _ | SCid, ACid _ | SUser, AUser _ | SEad, ABindEad _
  | SKeys, ABindKeys _ | SCrypto, ABindCrypto _ | SCred, ABindCred _ => true
  | _, _ => false
  end.
(** Two lists of calls that differ only in the order of calls about different settings. *)
Definition reordered (l l' : list api) : Prop :=
  forallb is_config l = true /\ forallb is_config l' = true /\ forall s, filter (about s) l = filter (about s) l'.
(** The last accepted call about a setting in a history with its results. *)
Definition in_force (s : setting) (rs : list (api * (Z * out))) : option api :=
  last (map (fun x => Some (fst x)) (filter (fun x => about s (fst x) && (fst (snd x) =? OK)) rs)) None.

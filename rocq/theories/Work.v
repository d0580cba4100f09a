(** Vocabulary of property C79: how much a call asks of the callbacks and of the allocator.
    No code of /repo is modelled here. *)
From Verif Require Import Monad History.
From Coq Require Import List.
Import ListNotations.

(** What may be asked: the operations of the crypto and key interfaces, the application's
    credential and EAD callbacks, and working buffers. *)
Inductive work := WMakePair | WAgree | WSign | WVerify | WExtract | WExpand | WEncrypt | WDecrypt
  | WHash | WImport | WDestroy | WFetch | WTrust | WEad | WBlock.
Definition works : list work := [WMakePair; WAgree; WSign; WVerify; WExtract; WExpand; WEncrypt; WDecrypt;
  WHash; WImport; WDestroy; WFetch; WTrust; WEad; WBlock].
Definition is_work (k : work) (ev : event) : bool :=
  match k, ev with
  | WMakePair, EvMkPair _ _ _ _ | WAgree, EvAgree _ _ _ _ | WSign, EvSign _ _ _ _ | WVerify, EvVerify _ _ _ _
  | WExtract, EvExtract _ _ _ _ | WExpand, EvExpand _ _ _ _ _ | WEncrypt, EvEncrypt _ _ _ _ _ _
  | WDecrypt, EvDecrypt _ _ _ _ _ _ | WHash, EvHash _ _ _ _ | WImport, EvImport _ _ _ _
  | WDestroy, EvDestroy _ _ | WFetch, EvFetch _ _ | WTrust, EvCredVerify _ _ _ _
  | WEad, EvEadCompose _ _ _ | WEad, EvEadProcess _ _ _ | WBlock, EvAlloc _ _ _ => true
  | _, _ => false
  end.
(** How often [e] asks for [k]. *)
Definition amount (k : work) (e : list event) : nat := length (filter (is_work k) e).

(** The most a call may ask for.  What is not listed is not asked for at all. *)
Definition limits (a : api) : list (work * nat) :=
  match a with
  | AM1Compose _ _ => [(WMakePair, 1); (WHash, 1); (WImport, 1); (WDestroy, 1); (WEad, 1); (WBlock, 1)]
  | AM1Process _ _ => [(WHash, 1); (WEad, 1)]
  | AM2Compose _ _ => [(WMakePair, 1); (WAgree, 2); (WSign, 1); (WExtract, 2); (WExpand, 3); (WHash, 2);
                       (WImport, 7); (WDestroy, 7); (WFetch, 1); (WEad, 1); (WBlock, 14)]
  | AM2Process _ _ => [(WAgree, 2); (WVerify, 1); (WExtract, 2); (WExpand, 3); (WHash, 2);
                       (WImport, 7); (WDestroy, 7); (WTrust, 1); (WEad, 1); (WBlock, 11)]
  | AM3Compose _ _ => [(WAgree, 1); (WSign, 1); (WExtract, 1); (WExpand, 4); (WEncrypt, 1); (WHash, 1);
                       (WImport, 6); (WDestroy, 6); (WFetch, 1); (WEad, 1); (WBlock, 14)]
  | AM3Process _ _ => [(WAgree, 1); (WVerify, 1); (WExtract, 1); (WExpand, 4); (WDecrypt, 1); (WHash, 1);
                       (WImport, 7); (WDestroy, 7); (WTrust, 1); (WEad, 1); (WBlock, 12)]
  | AM4Compose _ _ => [(WExpand, 2); (WEncrypt, 1); (WImport, 3); (WDestroy, 3); (WEad, 1); (WBlock, 6)]
  | AM4Process _ _ => [(WExpand, 2); (WDecrypt, 1); (WImport, 3); (WDestroy, 3); (WEad, 1); (WBlock, 5)]
  | AExport _ _ _ => [(WExpand, 3); (WImport, 3); (WDestroy, 3); (WBlock, 4)]
  | AKeyUpdate _ _ => [(WExpand, 2); (WImport, 2); (WDestroy, 2); (WBlock, 2)]
  | AOscore _ _ _ _ _ => [(WExpand, 5); (WImport, 5); (WDestroy, 5); (WBlock, 7)]
  | _ => []
  end%nat.
Definition work_eqb (a b : work) : bool :=
  match a, b with
  | WMakePair, WMakePair | WAgree, WAgree | WSign, WSign | WVerify, WVerify | WExtract, WExtract | WExpand, WExpand
  | WEncrypt, WEncrypt | WDecrypt, WDecrypt | WHash, WHash | WImport, WImport | WDestroy, WDestroy | WFetch, WFetch
  | WTrust, WTrust | WEad, WEad | WBlock, WBlock => true
  | _, _ => false
  end.
Definition look (l : list (work * nat)) (k : work) : nat :=
  match find (fun x => work_eqb (fst x) k) l with Some x => snd x | None => 0%nat end.
Definition limit (a : api) (k : work) : nat := look (limits a) k.
(** The most public-key operations of a call: key pairs, agreements, signatures, verifications. *)
Definition publics (a : api) : nat :=
  match a with
  | AM1Compose _ _ => 1 | AM2Compose _ _ => 3 | AM2Process _ _ => 2 | AM3Compose _ _ | AM3Process _ _ => 1
  | _ => 0
  end%nat.

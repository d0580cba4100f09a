(** library/edhoc_message_error.c.  These two calls take no context and no callback, so they
    are plain functions; [inr] is undefined behaviour. *)
From Verif Require Import Monad.

(** What the union of pointers in [struct edhoc_error_info] (edhoc_context.h 224-237) points
    to. *)
Inductive err_data := EdText (b : bytes) | EdSuites (l : list Z).
(** [struct edhoc_error_info]: pointer, total_entries, written_entries. *)
Record err_arg := EA { ea_ptr : option err_data; ea_total : Z; ea_written : Z }.

(** 90-97, 120-127: arguments a code that carries information insists on. *)
Definition err_arg_ok (i : option err_arg) : bool :=
  match i with
  | Some a => match ea_ptr a with Some _ => true | None => false end
              && negb (ea_total a =? 0) && negb (ea_written a =? 0)
              && (ea_written a <=? ea_total a)
  | None => false
  end.

(** 52-163 [edhoc_message_error_compose]: return value and message.  [nn]: the buffer and
    length pointers are non-NULL. *)
Definition message_error_compose (nn : bool) (size code : Z) (info : option err_arg)
  : (Z * bytes) + ub :=
  if negb nn || (size =? 0) then inl (E_INVALID_ARG, []) else
  if (code <? EC_SUCCESS) || (EC_UNKNOWN_CRED <? code) then inl (E_BAD_STATE, []) else
  let finish (i : option err_info) :=
    match (match enc_message_error code i with Some b => fits size b | None => None end) with
    | Some b => inl (OK, b)
    | None => inl (E_CBOR, [])
    end in
  if code =? EC_SUCCESS then finish None
  else if code =? EC_UNKNOWN_CRED then finish (Some EiTrue)
  else if negb (err_arg_ok info) then inl (E_INVALID_ARG, [])
  else
  match info with
  | Some (EA (Some d) _ w) =>
    match d with
    | EdText b =>
      if negb (code =? EC_UNSPECIFIED) then inr UbUnion
      else if zlen b <? w then inr UbRead
      else finish (Some (EiTstr (take w b)))
    | EdSuites l =>
      if negb (code =? EC_WRONG_SUITE) then inr UbUnion
      else if zlen l <? w then inr UbRead
      else if w =? 1 then finish (Some (EiSuites (SuInt (nth 0 l 0))))
      else if 3 <? w then inl (E_TOO_SMALL, [])
      else finish (Some (EiSuites (SuList (take w l))))
    end
  | _ => inl (E_INVALID_ARG, [])
  end.

(** What processing writes: the code, and the information ([None]: not written). *)
Record err_out := EO { eo_code : option Z; eo_info : option err_data }.

(** The generated [struct message_error_ERR_INFO] read as a text string whatever was decoded
    into the union (209-224): on an LP64 little-endian target the string length overlays the
    third element of the suites array and the pointer the first two; everything else is zero. *)
Definition as_text (i : err_info) : Z * option bytes :=
  match i with
  | EiTstr b => (zlen b, Some b)
  | EiSuites (SuList l) => (u32 (nth 2 l 0), None)
  | EiSuites (SuInt _) | EiTrue => (0, None)
  end.
(** ... and read as a suites structure (235-266): a text string or [true] leaves the choice
    and the count zero, which is the empty list. *)
Definition as_suites (i : err_info) : suites :=
  match i with
  | EiSuites s => s
  | EiTstr _ | EiTrue => SuList []
  end.

(** 165-278 [edhoc_message_error_process].  [info]: number of entries of the caller's buffer,
    [None] when the structure or its pointer is NULL. *)
Definition message_error_process (canon nn : bool) (msg : bytes) (info : option Z)
  : (Z * err_out) + ub :=
  let none := EO None None in
  if negb nn || (zlen msg =? 0) then inl (E_INVALID_ARG, none) else
  match dec_message_error canon msg with
  | None => inl (E_CBOR, none)
  | Some (code, ei) =>
    let only := EO (Some code) None in
    let total := match info with Some t => t | None => 0 end in
    if (code =? EC_SUCCESS) || (code =? EC_UNKNOWN_CRED) then inl (OK, only)
    else if code =? EC_UNSPECIFIED then
      match ei with
      | Some i =>
        if total =? 0 then inl (OK, only) else
        let (len, p) := as_text i in
        if total <? len then inl (E_TOO_SMALL, only)
        else if len =? 0 then inl (OK, EO (Some code) (Some (EdText [])))
        else match p with
             | Some b => inl (OK, EO (Some code) (Some (EdText b)))
             | None => inr UbWild
             end
      | None => inl (OK, only)
      end
    else if code =? EC_WRONG_SUITE then
      match ei with
      | Some i =>
        if total =? 0 then inl (OK, only) else
        match as_suites i with
        | SuInt v => inl (OK, EO (Some code) (Some (EdSuites [v])))
        | SuList l => if total <? zlen l then inl (E_TOO_SMALL, only)
                      else inl (OK, EO (Some code) (Some (EdSuites l)))
        end
      | None => inl (OK, only)
      end
    else inl (E_NOT_PERMITTED, none)
  end.

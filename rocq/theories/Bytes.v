(** Byte strings and sizes.

    A C [uint8_t] buffer together with its length is a [list Z]; sizes are [Z].
    No file of /repo is modelled here; these are the carriers used everywhere. *)
From Coq Require Export ZArith List Bool Lia.
From Coq Require Export ZifyBool.
Export ListNotations.
Open Scope Z_scope.

Definition bytes := list Z.

Definition is_byte (b : Z) : Prop := 0 <= b < 256.
Definition wf_bytes (l : bytes) : Prop := Forall is_byte l.
Definition is_byteb (b : Z) : bool := (0 <=? b) && (b <? 256).
Definition wf_bytesb (l : bytes) : bool := forallb is_byteb l.

(** Length as [Z] (C: the [size_t] accompanying a buffer). *)
Definition zlen {A} (l : list A) : Z := Z.of_nat (length l).

(** First [n] / all but the first [n] elements. *)
Definition take {A} (n : Z) (l : list A) : list A := firstn (Z.to_nat n) l.
Definition drop {A} (n : Z) (l : list A) : list A := skipn (Z.to_nat n) l.

(** [n] zero bytes (calloc / memset 0 / zero-initialised arrays). *)
Definition zeros (n : Z) : bytes := repeat 0 (Z.to_nat n).

(** [memcpy] of [src] over the beginning of [dst]. *)
Definition blit {A} (dst src : list A) : list A := src ++ skipn (length src) dst.

(** Reading [n] elements of a zero-initialised array of which [l] is the written prefix. *)
Definition arr_read (n : Z) (l : bytes) : bytes := take n (l ++ zeros n).

(** Equality of byte strings (memcmp == 0 at equal lengths). *)
Fixpoint beqb (a b : bytes) : bool :=
  match a, b with
  | [], [] => true
  | x :: a', y :: b' => (x =? y) && beqb a' b'
  | _, _ => false
  end.

(** Big-endian encoding of [v] on [n] bytes and back. *)
Fixpoint be (n : nat) (v : Z) : bytes :=
  match n with
  | O => []
  | S n' => be n' (v / 256) ++ [v mod 256]
  end.

Definition unbe (l : bytes) : Z := fold_left (fun a b => a * 256 + b) l 0.

(** Little-endian four-byte view of an [int32_t] (LP64 little-endian target), and back. *)
Definition le4 (v : Z) : bytes :=
  let u := v mod 2 ^ 32 in
  [u mod 256; u / 256 mod 256; u / 65536 mod 256; u / 16777216 mod 256].
Definition unle4 (l : bytes) : Z :=
  let u := nth 0 l 0 + 256 * nth 1 l 0 + 65536 * nth 2 l 0 + 16777216 * nth 3 l 0 in
  if u <? 2 ^ 31 then u else u - 2 ^ 32.

(** Casts. *)
Definition u8 (v : Z) : Z := v mod 2 ^ 8.
Definition u32 (v : Z) : Z := v mod 2 ^ 32.
Definition i8 (v : Z) : Z := let u := v mod 2 ^ 8 in if u <? 128 then u else u - 256.
Definition size_sub (a b : Z) : Z := (a - b) mod 2 ^ 64.

(** Sum of a list of sizes. *)
Definition zsum (l : list Z) : Z := fold_right Z.add 0 l.

(** xor of two byte strings (library/edhoc_message_2.c 835-839, [xor_arrays]: the
    loop runs over the length of the first array). *)
Fixpoint xor_bytes (a b : bytes) : bytes :=
  match a, b with
  | x :: a', y :: b' => Z.lxor x y :: xor_bytes a' b'
  | _, _ => a
  end.
Definition i32 (v : Z) : Z := let u := v mod 2 ^ 32 in if u <? 2 ^ 31 then u else u - 2 ^ 32.

(** Values of the C type int32_t. *)
Definition int32 (v : Z) : Prop := - 2 ^ 31 <= v < 2 ^ 31.

(** * Model of the byte-level conversions and of raw byte storage.

    [D] abbreviates include/boost/atomic/detail.  Objects are byte lists.  Memory
    accesses outside an object give [None] (undefined behaviour). *)
From Coq Require Import ZArith List Bool Arith.
Import ListNotations.
Open Scope Z_scope.

(** [memcpy(dst, src, n)]: the first [n] bytes of [dst] become those of [src] *)
Definition memcpy (dst src : list Z) (n : nat) : option (list Z) :=
  if (n <=? length dst)%nat && (n <=? length src)%nat then Some (firstn n src ++ skipn n dst) else None.

(** [memset(dst + off, 0, n)] *)
Definition memset0 (dst : list Z) (off n : nat) : option (list Z) :=
  if (off + n <=? length dst)%nat then Some (firstn off dst ++ repeat 0 n ++ skipn (off + n) dst) else None.

(** [memcmp(a, b, n)]: 0, or the sign of the first difference *)
Fixpoint memcmp (a b : list Z) (n : nat) {struct n} : option Z :=
  match n with
  | O => Some 0
  | S k => match a, b with
           | x :: a', y :: b' => if x =? y then memcmp a' b' k else Some (if x <? y then -1 else 1)
           | _, _ => None
           end
  end.

(** [__builtin_clear_padding(&obj)]: the bits outside the masks become zero *)
Fixpoint clear_padding (masks l : list Z) : list Z :=
  match masks, l with
  | m :: ms, b :: r => Z.land b m :: clear_padding ms r
  | _, _ => l
  end.

(** [bitwise_cast_memcpy< To, FromValueSize >(from)], D/bitwise_cast.hpp 83-119.
    [junk]: the uninitialised bytes of the [union] (91-98), as many as [sizeof(To)];
    [clr]: the padding masks of [From] if BOOST_ATOMIC_NO_CLEAR_PADDING is not defined (100-108).
    The tail is cleared by [clear_tail_padding_bits] (66-81), a no-op unless the value is smaller than [To]. *)
Definition bitwise_cast_memcpy (clr : option (list Z)) (value_size : nat) (junk from : list Z) : option (list Z) :=
  let from2 := match clr with Some m => clear_padding m from | None => from end in
  let to_size := length junk in
  match memcpy junk from2 (if (value_size <? to_size)%nat then value_size else to_size) with
  | None => None
  | Some st => if (value_size <? to_size)%nat then memset0 st value_size (to_size - value_size) else Some st
  end.

(** [storage_size_of< T >::value], D/storage_traits.hpp 174-179 *)
Definition storage_size (size : Z) : Z :=
  if size =? 3 then 4
  else if (5 <=? size) && (size <=? 7) then 8
  else if (9 <=? size) && (size <=? 15) then 16
  else size.

(** [buffer_storage< Size >::operator!], D/storage_traits.hpp 47-50: [data + 1] is the tail of the array,
    [Size - 1u] bytes are compared *)
Definition buffer_not (data : list Z) : option bool :=
  match data with
  | [] => None
  | b :: rest =>
      if b =? 0 then
        match memcmp data rest (length data - 1) with Some c => Some (c =? 0) | None => None end
      else Some false
  end.

(** [buffer_storage< Size >::operator==], 52-55, and [operator!=], 57-60, on two objects of [size] bytes *)
Definition buffer_eq (size : nat) (a b : list Z) : option bool :=
  match memcmp a b size with Some c => Some (c =? 0) | None => None end.
Definition buffer_ne (size : nat) (a b : list Z) : option bool :=
  match memcmp a b size with Some c => Some (negb (c =? 0)) | None => None end.
(** [non_atomic_load] of a [buffer_storage], 63-67 *)
Definition buffer_copy (to from : list Z) : option (list Z) := memcpy to from (length from).

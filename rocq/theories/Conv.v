(** * Model of integer conversions (include/boost/atomic/detail/integral_conversions.hpp).

    A machine word of [n] bits is an integer in [0, 2^n).  A C++ integer type is
    a pair (signed?, number of bits) and its values are mathematical integers.
    All C++ integral conversions reduce modulo 2^n (C++20 semantics, and the
    behaviour of every supported compiler before that). *)
From Coq Require Import ZArith Bool.
Open Scope Z_scope.

(** conversion of any integer to an unsigned type of [n] bits: [static_cast<uintN>(x)] *)
Definition wrap (n x : Z) : Z := x mod 2 ^ n.

(** [bitwise_cast] of an [n]-bit unsigned word to the signed type of the same
    size (bitwise_cast.hpp L137-L170, same-size case): two's complement reading *)
Definition sval (n x : Z) : Z := if x <? 2 ^ (n - 1) then x else x - 2 ^ n.

(** [zero_extend_impl<Output>(input)], L33-L45: go through the unsigned input
    type ([ni] bits) and the unsigned output type ([no] bits); for a signed
    output finish with a bitwise cast (L37), else plain conversion (L44). *)
Definition zero_extend (out_signed : bool) (ni no input : Z) : Z :=
  if out_signed then sval no (wrap no (wrap ni input)) else wrap no (wrap ni input).

(** [integral_truncate<Output>(input)], L55-L60 *)
Definition integral_truncate (out_signed : bool) (ni no input : Z) : Z :=
  zero_extend out_signed ni no input.

(** [sign_extend<Output>(input)], L62-L79, for an unsigned input word of [ni]
    bits (the only way the library calls it): truncation if the output is not
    wider (L65), otherwise convert the signed reading (L71). *)
Definition sign_extend (out_signed : bool) (ni no input : Z) : Z :=
  if no <=? ni then integral_truncate out_signed ni no input
  else (if out_signed then sval no else (fun x => x)) (wrap no (sval ni input)).

(** [integral_extend<Signed, Output>(input)], L82-L100 *)
Definition integral_extend (sg : bool) (out_signed : bool) (ni no input : Z) : Z :=
  if sg then sign_extend out_signed ni no input else zero_extend out_signed ni no input.

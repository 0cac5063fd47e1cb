(** Addresses.  Transcribes nsasm/address.h.  An Address object is its value_ field, a
    number in 0..0x1000000. *)
From Verif Require Import Base ModelNumeric.

(** nsasm/address.h:19-23: the constructor takes a uint32_t (an int argument is converted)
    and asserts the value is at most 0x1000000. *)
Definition mk_address (v : Z) : res Z :=
  let u := to_uint32 v in if u <=? 0x1000000 then Ok u else UB UB_assert.

(** nsasm/address.h:24-25: arguments are converted to uint8_t and uint16_t. *)
Definition mk_address2 (bank addr : Z) : Z :=
  Z.lor (Z.shiftl (to_uint8 bank) 16) (to_uint16 addr).

(** nsasm/address.h:27-28. *)
Definition addr_bank (a : Z) : Z := Z.shiftr a 16.
Definition addr_low (a : Z) : Z := Z.land a 0xffff.

(** nsasm/address.h:36-40.  value_ + offset is unsigned 32-bit arithmetic; masking with
    0xffff makes the reduction modulo 2^32 invisible, it is kept for fidelity.  The
    constructor's assertion can not fail here: the value is below 0x1000000. *)
Definition add_wrapped (a off : Z) : Z :=
  let high := Z.land a 0xff0000 in
  let low := Z.land (to_uint32 (a + off)) 0xffff in
  Z.lor high low.

(** nsasm/address.h:42-44. *)
Definition add_unwrapped (a off : Z) : res Z := mk_address (a + off).

(** nsasm/address.h:51-58. *)
Definition subtract_wrapped (a b : Z) : res Z :=
  if negb (addr_bank a =? addr_bank b) then Err E_bank
  else
    let offset := Z.land (to_uint32 (addr_low a - addr_low b)) 0xffff in
    Ok (if 0x7fff <? offset then offset - 0x10000 else offset).

(** nsasm/address.h:80-119: a LabelValue is its int value_. *)
(** nsasm/address.h:83-84. *)
Definition label_of_address (a : Z) : Z := Z.lor (Z.shiftl (addr_bank a) 16) (addr_low a).
(** nsasm/address.h:91. *)
Definition label_to_number (t : ntype) (v : Z) : Z := cast_to t v.
(** nsasm/address.h:95. *)
Definition label_to_address (v : Z) : res Z := mk_address v.

(** Numeric types.  Transcribes nsasm/numeric_type.h. *)
From Verif Require Import Base.

(** nsasm/numeric_type.h:9-17. *)
Inductive ntype :=
| T_unknown | T_byte | T_word | T_long | T_signed_byte | T_signed_word | T_signed_long.

(** Enumerator values, nsasm/numeric_type.h:9-17. *)
Definition ntype_index (t : ntype) : Z :=
  match t with
  | T_unknown => 0 | T_byte => 1 | T_word => 2 | T_long => 3
  | T_signed_byte => 4 | T_signed_word => 5 | T_signed_long => 6
  end.

(** Enumerator comparison. *)
Definition ntype_eqb (a b : ntype) : bool := ntype_index a =? ntype_index b.

(** nsasm/numeric_type.h:20-43. *)
Definition cast_to (t : ntype) (v : Z) : Z :=
  match t with
  | T_byte => Z.land v 0xff
  | T_word => Z.land v 0xffff
  | T_long => Z.land v 0xffffff
  | T_signed_byte => let w := Z.land v 0xff in if 0x80 <=? w then w - 0x100 else w
  | T_signed_word => let w := Z.land v 0xffff in if 0x8000 <=? w then w - 0x10000 else w
  | T_signed_long =>
      let w := Z.land v 0xffffff in if 0x800000 <=? w then w - 0x1000000 else w
  | T_unknown => v
  end.

(** nsasm/numeric_type.h:45-50. *)
Definition t_unsigned (t : ntype) : ntype :=
  match t with
  | T_signed_byte => T_byte | T_signed_word => T_word | T_signed_long => T_long
  | t => t
  end.

(** nsasm/numeric_type.h:52-57. *)
Definition t_signed (t : ntype) : ntype :=
  match t with
  | T_byte => T_signed_byte | T_word => T_signed_word | T_long => T_signed_long
  | t => t
  end.

(** nsasm/numeric_type.h:59-62. *)
Definition is_signed (t : ntype) : bool :=
  match t with T_signed_byte | T_signed_word | T_signed_long => true | _ => false end.

(** std::max on enumerators. *)
Definition ntype_max (a b : ntype) : ntype :=
  if ntype_index a <? ntype_index b then b else a.

(** nsasm/numeric_type.h:65-71. *)
Definition arith_conv (l r : ntype) : ntype :=
  if ntype_eqb l T_unknown then r
  else if ntype_eqb r T_unknown then l
  else
    let signed_result := is_signed l || is_signed r in
    let wider := ntype_max (t_unsigned l) (t_unsigned r) in
    if signed_result then t_signed wider else t_unsigned wider.

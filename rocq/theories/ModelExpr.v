(** Expressions and identifiers.  Transcribes nsasm/identifiers.h and
    nsasm/expression.{h,cc}. *)
From Verif Require Import Base ModelNumeric.
Open Scope string_scope.
Open Scope Z_scope.

(** nsasm/identifiers.h:12-45: optional module name and identifier name. *)
Record fullid := FullId { fi_module : option string; fi_name : string }.

(** nsasm/identifiers.h:35 (defaulted comparison). *)
Definition option_string_eqb (a b : option string) : bool :=
  match a, b with
  | None, None => true
  | Some x, Some y => String.eqb x y
  | _, _ => false
  end.
Definition fullid_eqb (a b : fullid) : bool :=
  option_string_eqb (fi_module a) (fi_module b) && String.eqb (fi_name a) (fi_name b).

(** nsasm/identifiers.h:24. *)
Definition fi_qualified (i : fullid) : bool :=
  match fi_module i with Some _ => true | None => false end.

(** nsasm/identifiers.h:27-33. *)
Definition fullid_to_string (i : fullid) : string :=
  match fi_module i with
  | Some m => String.append m (String.append "::" (fi_name i))
  | None => fi_name i
  end.

(** nsasm/expression.h:26-46. *)
Inductive binop := Op_plus | Op_minus | Op_mul | Op_div.
(** nsasm/expression.h:61-80. *)
Inductive unop := Op_neg | Op_lowbyte | Op_highbyte | Op_bankbyte.

(** nsasm/expression.h:220-375.  ExpressionOrNull (145-217) as an operand of a binary or
    unary expression is never null when built by the parser and is modelled as [expr];
    an instruction's or directive's argument is [option expr].  The literal constructor
    holds the already cast value, see [mk_lit]. *)
Inductive expr :=
| ELit (v : Z) (t : ntype)
| EId (id : fullid) (t : ntype)
| EBin (op : binop) (l r : expr)
| EUn (op : unop) (a : expr)
| ELabel (name : string) (held : expr).

(** nsasm/expression.h:222-223. *)
Definition mk_lit (v : Z) (t : ntype) : expr := ELit (cast_to t v) t.

(** nsasm/expression.h:82-86. *)
Definition lookup_ctx := fullid -> res Z.

(** nsasm/expression.h:88-93. *)
Definition null_ctx : lookup_ctx := fun _ => Err E_null_lookup.

(** nsasm/expression.h:27,31,35,39-44.  Signed overflow is undefined; INT_MIN / -1
    overflows. *)
Definition apply_binop (op : binop) (a b : Z) : res Z :=
  match op with
  | Op_plus => int_result (a + b)
  | Op_minus => int_result (a - b)
  | Op_mul => int_result (a * b)
  | Op_div => if b =? 0 then Err E_div_zero else int_result (Z.quot a b)
  end.

(** nsasm/expression.h:62,67,72,77. *)
Definition apply_unop (op : unop) (a : Z) : res Z :=
  match op with
  | Op_neg => int_result (- a)
  | Op_lowbyte => Ok (Z.land a 0xff)
  | Op_highbyte => Ok (Z.land (Z.shiftr a 8) 0xff)
  | Op_bankbyte => Ok (Z.land (Z.shiftr a 16) 0xff)
  end.

(** Evaluate: nsasm/expression.h:225, 251, 288-294, 326-330, 355-357.  The binary case
    evaluates both operands before looking at either error; undefined behaviour in the
    right operand therefore happens even if the left one is an error. *)
Fixpoint eval (c : lookup_ctx) (e : expr) : res Z :=
  match e with
  | ELit v _ => Ok v
  | EId id _ => c id
  | EBin op l r =>
      match eval c l, eval c r with
      | UB u, _ => UB u
      | OutOfFuel, _ => OutOfFuel
      | _, UB u => UB u
      | _, OutOfFuel => OutOfFuel
      | Err e, _ => Err e
      | Ok _, Err e => Err e
      | Ok a, Ok b => apply_binop op a b
      end
  | EUn op a => let* v := eval c a in apply_unop op v
  | ELabel _ h => eval c h
  end.

(** nsasm/expression.h:63,68,73,78. *)
Definition unop_type (op : unop) (t : ntype) : ntype :=
  match op with Op_neg => t_signed t | _ => T_byte end.

(** Type: nsasm/expression.h:228, 254, 295-297, 331, 358. *)
Fixpoint expr_type (e : expr) : ntype :=
  match e with
  | ELit _ t => t
  | EId _ t => t
  | EBin _ l r => arith_conv (expr_type l) (expr_type r)
  | EUn op a => unop_type op (expr_type a)
  | ELabel _ h => expr_type h
  end.

(** SimpleIdentifier: nsasm/expression.h:119-121 (default), 267-272. *)
Definition simple_identifier (e : expr) : option string :=
  match e with
  | EId id _ => if fi_qualified id then None else Some (fi_name id)
  | _ => None
  end.

(** RequiresLookup: nsasm/expression.h:229, 255, 298-300, 332, 359. *)
Fixpoint requires_lookup (e : expr) : bool :=
  match e with
  | ELit _ _ => false
  | EId _ _ => true
  | EBin _ l r => requires_lookup l || requires_lookup r
  | EUn _ a => requires_lookup a
  | ELabel _ _ => true
  end.

(** ExternalNamesReferenced: nsasm/expression.h:230-233, 256-265, 301-307, 333-336,
    360-363.  The std::set is a list (order and duplicates are irrelevant to its uses). *)
Fixpoint external_names (is_local : fullid -> bool) (e : expr) : list fullid :=
  match e with
  | ELit _ _ => []
  | EId id _ =>
      if is_local id then []
      else if fi_qualified id then [id]
      else [FullId (Some "") (fi_name id)]
  | EBin _ l r => (external_names is_local l ++ external_names is_local r)%list
  | EUn _ a => external_names is_local a
  | ELabel _ _ => []
  end.

(** ExpressionOrNull (nsasm/expression.h:146-217). *)
Definition eval_opt (c : lookup_ctx) (e : option expr) : res Z :=
  match e with Some e => eval c e | None => Err E_logic end.
Definition type_opt (e : option expr) : ntype :=
  match e with Some e => expr_type e | None => T_unknown end.
Definition simple_identifier_opt (e : option expr) : option string :=
  match e with Some e => simple_identifier e | None => None end.
Definition external_names_opt (is_local : fullid -> bool) (e : option expr) : list fullid :=
  match e with Some e => external_names is_local e | None => [] end.

(** IsLabel / ApplyLabel: nsasm/expression.h:377-391.  (A label wrapping a null
    expression is not modelled: the disassembler only applies labels to decoded
    branch operands.) *)
Definition is_label (e : option expr) : bool :=
  match e with Some (ELabel _ _) => true | _ => false end.
Definition apply_label (l : string) (e : option expr) : option expr :=
  match e with
  | Some (ELabel _ h) => Some (ELabel l h)
  | Some h => Some (ELabel l h)
  | None => None
  end.

(** Printing numbers: absl::StrFormat("%0Nx") and ("%d"). *)
Definition hex_digit (d : Z) : ascii :=
  ascii_of_N (Z.to_N (if d <? 10 then 48 + d else 87 + d)).

(** Lower-case hexadecimal, most significant digit first, [n] digits of [v]. *)
Fixpoint hex_fixed (n : nat) (v : Z) : string :=
  match n with
  | O => ""
  | S n' => String.append (hex_fixed n' (v / 16)) (String (hex_digit (v mod 16)) "")
  end.

(** Decimal digits of a non-negative number, fuel = number of digits allowed. *)
Fixpoint dec_digits (fuel : nat) (v : Z) : string :=
  match fuel with
  | O => ""
  | S f =>
      if v <? 10 then String (hex_digit v) ""
      else String.append (dec_digits f (v / 10)) (String (hex_digit (v mod 10)) "")
  end.
(** "%d"; twenty digits suffice for an int. *)
Definition dec_string (v : Z) : string :=
  if v <? 0 then String "-" (dec_digits 20 (- v)) else dec_digits 20 v.

(** nsasm/expression.cc:8-20.  "%02x" etc. print more digits when the value does not fit;
    the value is already reduced by CastTo, so exactly 2, 4 or 6 digits are printed. *)
Definition lit_to_string (v : Z) (t : ntype) : string :=
  let o := cast_to t v in
  match t with
  | T_byte => String "$" (hex_fixed 2 o)
  | T_word => String "$" (hex_fixed 4 o)
  | T_long => String "$" (hex_fixed 6 o)
  | _ => dec_string o
  end.

(** nsasm/expression.h:27-79 (symbol fields). *)
Definition binop_symbol (op : binop) : string :=
  match op with Op_plus => "+" | Op_minus => "-" | Op_mul => "*" | Op_div => "/" end.
Definition unop_symbol (op : unop) : string :=
  match op with Op_neg => "-" | Op_lowbyte => "<" | Op_highbyte => ">" | Op_bankbyte => "^" end.

(** ToString: nsasm/expression.cc:8-24, nsasm/expression.h:308-311, 337-339, 364. *)
Fixpoint expr_to_string (e : expr) : string :=
  match e with
  | ELit v t => lit_to_string v t
  | EId id t => String.append (if ntype_eqb t T_long then "@" else "") (fullid_to_string id)
  | EBin op l r =>
      "op" ++ binop_symbol op ++ "(" ++ expr_to_string l ++ ", " ++ expr_to_string r ++ ")"
  | EUn op a => "op" ++ unop_symbol op ++ "(" ++ expr_to_string a ++ ")"
  | ELabel n _ => n
  end%string.

Definition expr_opt_to_string (e : option expr) : string :=
  match e with Some e => expr_to_string e | None => "<NULL>" end.

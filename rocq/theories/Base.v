(** Shared definitions: outcomes, 32-bit integers, characters. *)
From Coq Require Export ZArith Lia Bool.
From Coq Require Export Ascii String.
From Coq Require Export List.
Export ListNotations.
Open Scope Z_scope.

(** Kinds of undefined behaviour / abnormal termination in the C++ program. *)
Inductive ub :=
| UB_assert     (* failed assert() *)
| UB_overflow   (* signed integer overflow *)
| UB_oob        (* access outside a container *)
| UB_null       (* null pointer dereference *)
| UB_uninit.    (* use of a variable that was not set *)

(** Kinds of nsasm::Error.  The message text of nsasm/error.h:13-40 is reduced to a
    kind; the location carried by an Error is not modelled. *)
Inductive err :=
| E_not_enough_bytes      (* decode.cc: "Not enough bytes to decode" *)
| E_unknown_size          (* operand size depends on an unknown flag *)
| E_flag_mismatch         (* operand size or suffix contradicts a known flag *)
| E_logic                 (* any "logic error: ..." *)
| E_div_zero              (* "division by zero" *)
| E_null_lookup           (* NullLookupContext *)
| E_no_mode               (* DeduceMode failures *)
| E_bank                  (* Address::SubtractWrapped across banks *)
| E_branch_range          (* "Relative branch too far" *)
| E_token                 (* Tokenize failures *)
| E_parse                 (* Parse failures *)
| E_convention            (* return convention on something other than a call *)
| E_suffix                (* suffix not supported *)
| E_exec_data             (* "Execution continues into ..." *)
| E_past_end              (* "Execution continues past end of file" *)
| E_no_target             (* branch target not found *)
| E_unreached             (* "Line not reached during execution" *)
| E_no_address            (* "No address given for assembly" *)
| E_undefined             (* reference to an undefined name *)
| E_before_def            (* value accessed before definition *)
| E_duplicate             (* duplicate label / module / export *)
| E_scope                 (* unmatched scope open or close *)
| E_overlap               (* second write to the same address *)
| E_no_value              (* "Label missing a value" *)
| E_cycle                 (* "Cyclic dependency in .equ definitions" *)
| E_rom_address           (* SnesToROMAddress failures *)
| E_rom_range             (* address past the end of the ROM *)
| E_mismatch              (* RomIdentityTest difference *)
| E_sink.                 (* error reported by an output sink *)

(** Outcome of a C++ call. *)
Inductive res (A : Type) :=
| Ok (a : A)
| Err (e : err)
| UB (u : ub)
| OutOfFuel.
Arguments Ok {A} a.
Arguments Err {A} e.
Arguments UB {A} u.
Arguments OutOfFuel {A}.

(** NSASM_RETURN_IF_ERROR, nsasm/error.h:90-104 (undefined behaviour propagates). *)
Definition bind {A B} (r : res A) (f : A -> res B) : res B :=
  match r with
  | Ok a => f a
  | Err e => Err e
  | UB u => UB u
  | OutOfFuel => OutOfFuel
  end.
Notation "'let*' x ':=' r 'in' k" := (bind r (fun x => k))
  (at level 200, x pattern, r at level 100, k at level 200, right associativity).

Definition is_ok {A} (r : res A) : bool := match r with Ok _ => true | _ => false end.

(** The range of a C++ int. *)
Definition int_min : Z := -2147483648.
Definition int_max : Z := 2147483647.
Definition in_int (z : Z) : bool := (int_min <=? z) && (z <=? int_max).

(** Result of a signed int operation: undefined on overflow. *)
Definition int_result (z : Z) : res Z := if in_int z then Ok z else UB UB_overflow.

(** Conversion long -> int (modulo 2^32, C++20 [conv.integral]). *)
Definition to_int32 (z : Z) : Z :=
  let w := z mod 4294967296 in if 2147483648 <=? w then w - 4294967296 else w.

(** Conversion int -> uint32_t. *)
Definition to_uint32 (z : Z) : Z := z mod 4294967296.
(** Conversion int -> uint16_t / uint8_t. *)
Definition to_uint16 (z : Z) : Z := z mod 65536.
Definition to_uint8 (z : Z) : Z := z mod 256.

(** Characters. *)
Definition code (c : ascii) : Z := Z.of_N (N_of_ascii c).
Definition in_range (lo hi : ascii) (c : ascii) : bool :=
  (code lo <=? code c) && (code c <=? code hi).

(** absl::ascii_tolower / ascii_toupper. *)
Definition ascii_lower (c : ascii) : ascii :=
  if in_range "A" "Z" c then ascii_of_N (N_of_ascii c + 32) else c.
Definition ascii_upper (c : ascii) : ascii :=
  if in_range "a" "z" c then ascii_of_N (N_of_ascii c - 32) else c.

(** absl::AsciiStrToLower / AsciiStrToUpper. *)
Fixpoint str_lower (s : string) : string :=
  match s with EmptyString => EmptyString | String c s' => String (ascii_lower c) (str_lower s') end.
Fixpoint str_upper (s : string) : string :=
  match s with EmptyString => EmptyString | String c s' => String (ascii_upper c) (str_upper s') end.

(** absl::ascii_isspace: space, \t \n \v \f \r. *)
Definition is_space (c : ascii) : bool :=
  (code c =? 32) || ((9 <=? code c) && (code c <=? 13)).

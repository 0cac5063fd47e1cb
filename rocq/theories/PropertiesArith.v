(** Properties C12, C13, C14, C38: numbers, addresses, expressions, data directives. *)
From Verif Require Import Base ModelNumeric ModelAddress ModelMnemonic ModelExpr ModelState
  ModelStatement SpecArith ArithProofs.
Open Scope string_scope.
Open Scope Z_scope.

(** C13.  Adding any offset keeps the bank and adds modulo 2^16. *)
Theorem C13_add_wrapped : forall a off, addr24 a ->
  addr24 (add_wrapped a off) /\
  bank_of (add_wrapped a off) = bank_of a /\
  offset_of (add_wrapped a off) = (offset_of a + off) mod 2 ^ 16.
Proof. exact (fun a off H => conj (add_wrapped_24 a off (proj1 H)) (add_wrapped_bank_offset a off H)). Qed.
Example C13_add_wrapped_ex : addr24 0x12ffff /\ add_wrapped 0x12ffff 3 = 0x120002.
Proof. split; [unfold addr24; split; [discriminate|reflexivity]|vm_compute; reflexivity]. Qed.
Print Assumptions C13_add_wrapped.

(** C13.  Wrapped subtraction returns d exactly when d is the offset in [-32768, 32767] that
    leads from b to a; such an offset exists exactly when the banks agree, otherwise an error
    is reported. *)
Theorem C13_subtract_wrapped : forall a b, addr24 a -> addr24 b ->
  (forall d, subtract_wrapped a b = Ok d <->
     bank_of a = bank_of b /\ - 2 ^ 15 <= d < 2 ^ 15 /\ add_wrapped b d = a) /\
  (bank_of a = bank_of b -> exists d, subtract_wrapped a b = Ok d) /\
  (bank_of a <> bank_of b -> exists e, subtract_wrapped a b = Err e).
Proof. exact subtract_wrapped_full. Qed.
Example C13_subtract_wrapped_ex :
  addr24 0x120002 /\ addr24 0x12ffff /\ subtract_wrapped 0x120002 0x12ffff = Ok 3 /\
  subtract_wrapped 0x12ffff 0x120002 = Ok (-3) /\
  subtract_wrapped 0x120000 0x130000 = Err E_bank.
Proof. unfold addr24. repeat split; try discriminate; vm_compute; reflexivity. Qed.
Print Assumptions C13_subtract_wrapped.

(** C14.  A cast gives the only value of the type congruent to its argument modulo 2^width;
    casting to no type changes nothing. *)
Theorem C14_cast : forall t v,
  in_type t (cast_to t v) /\
  (t = T_unknown -> cast_to t v = v) /\
  (t <> T_unknown -> forall w,
     w = cast_to t v <-> in_type t w /\ w mod 2 ^ type_bits t = v mod 2 ^ type_bits t).
Proof. exact cast_full. Qed.
Example C14_cast_ex : cast_to T_signed_word 0x18000 = -32768 /\ cast_to T_byte (-1) = 255.
Proof. split; vm_compute; reflexivity. Qed.
Print Assumptions C14_cast.

(** C14.  Casting twice to one type is casting once; values of the type are kept. *)
Theorem C14_cast_idempotent : forall t v,
  cast_to t (cast_to t v) = cast_to t v /\ (in_type t v -> cast_to t v = v).
Proof. exact (fun t v => conj (cast_idem t v) (cast_id t v)). Qed.
Example C14_cast_idempotent_ex : in_type T_signed_byte (-128) /\ cast_to T_signed_byte 128 = -128.
Proof. cbn. repeat split; discriminate. Qed.
Print Assumptions C14_cast_idempotent.

(** C14.  The conversion of two operand types is a commutative idempotent monoid with "no
    type" as unit; of two proper types it is the wider, signed iff one of them is. *)
Theorem C14_arithmetic_conversion :
  (forall a b, arith_conv a b = arith_conv b a) /\
  (forall a b c, arith_conv a (arith_conv b c) = arith_conv (arith_conv a b) c) /\
  (forall a, arith_conv a a = a) /\
  (forall a, arith_conv T_unknown a = a) /\
  (forall a b, a <> T_unknown -> b <> T_unknown ->
     arith_conv a b <> T_unknown /\
     type_bits (arith_conv a b) = Z.max (type_bits a) (type_bits b) /\
     type_signed (arith_conv a b) = (type_signed a || type_signed b)%bool).
Proof. exact (conj arith_conv_comm (conj arith_conv_assoc (conj arith_conv_idem
         (conj arith_conv_unit arith_conv_bits)))). Qed.
Example C14_arithmetic_conversion_ex :
  arith_conv T_signed_byte T_word = T_signed_word /\ arith_conv T_long T_unknown = T_long.
Proof. split; reflexivity. Qed.
Print Assumptions C14_arithmetic_conversion.

(** C12.  When every name used has a value, evaluation returns v exactly when v is the
    mathematical value (all intermediate results being ints); reports an error exactly when
    some division has divisor zero and nothing overflows; and overflows exactly when some
    operation has a result outside the int range.  There is no other outcome. *)
Theorem C12_evaluation : forall c e, resolves c e ->
  (forall v, eval c e = Ok v <-> means (env_of c) e v) /\
  (eval c e = Err E_div_zero <-> divides_by_zero (env_of c) e /\ ~ overflows (env_of c) e) /\
  (eval c e = UB UB_overflow <-> overflows (env_of c) e) /\
  ((exists v, eval c e = Ok v) \/ eval c e = Err E_div_zero \/ eval c e = UB UB_overflow).
Proof. exact eval_exact. Qed.
Definition C12_ctx : lookup_ctx :=
  fun i => if String.eqb (fi_name i) "n" then Ok 3 else Err E_undefined.
Definition C12_expr : expr :=
  EBin Op_minus (EBin Op_div (EUn Op_neg (ELit 7 T_unknown)) (EId (FullId None "n") T_word))
       (EUn Op_highbyte (ELit 0x1234 T_word)).
Example C12_evaluation_ex : resolves C12_ctx C12_expr /\ eval C12_ctx C12_expr = Ok (-20).
Proof.
  split; [|vm_compute; reflexivity]. intros i [<-|[]]. exists 3. reflexivity.
Qed.
Example C12_evaluation_ex2 :
  eval C12_ctx (EBin Op_div (ELit 1 T_byte) (ELit 0 T_byte)) = Err E_div_zero /\
  eval C12_ctx (EBin Op_plus (ELit 2147483647 T_unknown) (ELit 1 T_byte)) = UB UB_overflow.
Proof. split; vm_compute; reflexivity. Qed.
Print Assumptions C12_evaluation.

(** C12.  Any successful evaluation, in any context, is the mathematical value. *)
Theorem C12_evaluation_sound : forall c e v, eval c e = Ok v -> means (env_of c) e v.
Proof. exact eval_means. Qed.
Example C12_evaluation_sound_ex : eval C12_ctx C12_expr = Ok (-20).
Proof. vm_compute. reflexivity. Qed.
Print Assumptions C12_evaluation_sound.

(** C12.  Evaluation depends only on the values of the names used. *)
Theorem C12_depends_on_names : forall c1 c2 e,
  (forall i, In i (names_in e) -> c1 i = c2 i) -> eval c1 e = eval c2 e.
Proof. exact eval_ext. Qed.
Example C12_depends_on_names_ex :
  (forall i, In i (names_in C12_expr) -> C12_ctx i = Ok 3) /\ null_ctx (FullId None "n") <> Ok 3.
Proof. split; [intros i [<-|[]]; reflexivity|discriminate]. Qed.
Print Assumptions C12_depends_on_names.

(** C38.  .DB/.DW/.DL hand the sink exactly the low 1/2/3 bytes, little-endian, of the value
    of each argument, in order, and succeed exactly when every argument has a value; no
    other directive writes. *)
Theorem C38_data_directives : forall c d b,
  directive_bytes c d = Ok b <->
  match d_name d with
  | D_db => exists vs, Forall2 (means (env_of c)) (d_list d) vs /\ b = Some (flat_map (le_bytes 1) vs)
  | D_dw => exists vs, Forall2 (means (env_of c)) (d_list d) vs /\ b = Some (flat_map (le_bytes 2) vs)
  | D_dl => exists vs, Forall2 (means (env_of c)) (d_list d) vs /\ b = Some (flat_map (le_bytes 3) vs)
  | _ => b = None
  end.
Proof. exact data_directives_full. Qed.
Example C38_data_directives_ex :
  directive_bytes C12_ctx
    (Directive D_dl None default_flags RC_default [ELit 0x123456 T_long; ELit (-2) T_unknown])
  = Ok (Some [0x56; 0x34; 0x12; 0xfe; 0xff; 0xff]).
Proof. vm_compute. reflexivity. Qed.
Print Assumptions C38_data_directives.

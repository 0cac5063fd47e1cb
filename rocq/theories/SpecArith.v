(** Specifications for numbers, addresses and expressions, independent of the model. *)
From Verif Require Import Base ModelNumeric ModelExpr.

(** A 24-bit address; its bank and its offset in the bank. *)
Definition addr24 (a : Z) : Prop := 0 <= a < 2 ^ 24.
Definition bank_of (a : Z) : Z := a / 2 ^ 16.
Definition offset_of (a : Z) : Z := a mod 2 ^ 16.

(** The processor moves a program counter within its bank. *)
Definition same_bank_plus (a d : Z) : Z := bank_of a * 2 ^ 16 + (offset_of a + d) mod 2 ^ 16.

(** The set of values of a numeric type, and the number of values it has. *)
Definition in_type (t : ntype) (v : Z) : Prop :=
  match t with
  | T_unknown => True
  | T_byte => 0 <= v < 2 ^ 8
  | T_word => 0 <= v < 2 ^ 16
  | T_long => 0 <= v < 2 ^ 24
  | T_signed_byte => - 2 ^ 7 <= v < 2 ^ 7
  | T_signed_word => - 2 ^ 15 <= v < 2 ^ 15
  | T_signed_long => - 2 ^ 23 <= v < 2 ^ 23
  end.
Definition type_bits (t : ntype) : Z :=
  match t with
  | T_unknown => 32
  | T_byte | T_signed_byte => 8
  | T_word | T_signed_word => 16
  | T_long | T_signed_long => 24
  end.
Definition type_signed (t : ntype) : bool :=
  match t with T_signed_byte | T_signed_word | T_signed_long => true | _ => false end.

(** The mathematical meaning of an expression, as a relation: [means env e v].  No overflow
    occurs: every value is an int.  [env] gives the values of names. *)
Definition int32 (v : Z) : Prop := - 2 ^ 31 <= v < 2 ^ 31.
Inductive means (env : fullid -> option Z) : expr -> Z -> Prop :=
| m_lit : forall v t, means env (ELit v t) v
| m_id : forall i t v, env i = Some v -> means env (EId i t) v
| m_add : forall l r a b, means env l a -> means env r b -> int32 (a + b) ->
    means env (EBin Op_plus l r) (a + b)
| m_sub : forall l r a b, means env l a -> means env r b -> int32 (a - b) ->
    means env (EBin Op_minus l r) (a - b)
| m_mul : forall l r a b, means env l a -> means env r b -> int32 (a * b) ->
    means env (EBin Op_mul l r) (a * b)
| m_div : forall l r a b q m, means env l a -> means env r b -> int32 q ->
    (* truncated division: a = b q + m with |m| < |b| and m of the sign of a *)
    b <> 0 -> a = b * q + m -> Z.abs m < Z.abs b -> 0 <= m * a ->
    means env (EBin Op_div l r) q
| m_neg : forall e a, means env e a -> int32 (- a) -> means env (EUn Op_neg e) (- a)
| m_lo : forall e a, means env e a -> means env (EUn Op_lowbyte e) (a mod 2 ^ 8)
| m_hi : forall e a, means env e a -> means env (EUn Op_highbyte e) (a / 2 ^ 8 mod 2 ^ 8)
| m_bank : forall e a, means env e a -> means env (EUn Op_bankbyte e) (a / 2 ^ 16 mod 2 ^ 8)
| m_label : forall n e a, means env e a -> means env (ELabel n e) a.

(** Some division in the expression has a zero divisor. *)
Inductive divides_by_zero (env : fullid -> option Z) : expr -> Prop :=
| z_here : forall l r a, means env l a -> means env r 0 -> divides_by_zero env (EBin Op_div l r)
| z_left : forall op l r, divides_by_zero env l -> divides_by_zero env (EBin op l r)
| z_right : forall op l r, divides_by_zero env r -> divides_by_zero env (EBin op l r)
| z_un : forall op e, divides_by_zero env e -> divides_by_zero env (EUn op e)
| z_label : forall n e, divides_by_zero env e -> divides_by_zero env (ELabel n e).

(** Some operation in the expression has a result outside the int range. *)
Inductive overflows (env : fullid -> option Z) : expr -> Prop :=
| o_add : forall l r a b, means env l a -> means env r b -> ~ int32 (a + b) ->
    overflows env (EBin Op_plus l r)
| o_sub : forall l r a b, means env l a -> means env r b -> ~ int32 (a - b) ->
    overflows env (EBin Op_minus l r)
| o_mul : forall l r a b, means env l a -> means env r b -> ~ int32 (a * b) ->
    overflows env (EBin Op_mul l r)
| o_div : forall l r a b q m, means env l a -> means env r b -> ~ int32 q ->
    b <> 0 -> a = b * q + m -> Z.abs m < Z.abs b -> 0 <= m * a ->
    overflows env (EBin Op_div l r)
| o_neg : forall e a, means env e a -> ~ int32 (- a) -> overflows env (EUn Op_neg e)
| o_left : forall op l r, overflows env l -> overflows env (EBin op l r)
| o_right : forall op l r, overflows env r -> overflows env (EBin op l r)
| o_un : forall op e, overflows env e -> overflows env (EUn op e)
| o_label : forall n e, overflows env e -> overflows env (ELabel n e).

(** Names occurring in an expression. *)
Fixpoint names_in (e : expr) : list fullid :=
  match e with
  | ELit _ _ => []
  | EId i _ => [i]
  | EBin _ l r => names_in l ++ names_in r
  | EUn _ a => names_in a
  | ELabel _ h => names_in h
  end.

(** The environment given by a lookup context: the names it resolves. *)
Definition env_of (c : lookup_ctx) : fullid -> option Z :=
  fun i => match c i with Ok v => Some v | _ => None end.

(** Every name used in the expression has a value. *)
Definition resolves (c : lookup_ctx) (e : expr) : Prop :=
  forall i, In i (names_in e) -> exists v, c i = Ok v.

(** The low [n] bytes of [v], least significant first. *)
Fixpoint le_bytes (n : nat) (v : Z) : list Z :=
  match n with O => [] | S n' => v mod 2 ^ 8 :: le_bytes n' (v / 2 ^ 8) end.

(** Where statements are placed. *)
From Verif Require Import Base ModelExpr ModelMnemonic ModelInstr ModelStatement SpecArith SpecScope.
Open Scope list_scope.

(** A .org directive and its address: a constant expression, as an unsigned 32-bit number.
    (2^24, one past the last address, is accepted.) *)
Definition org_at (s : statement) (a : Z) : Prop :=
  exists d e v, s = SDir d /\ d_name d = D_org /\ d_arg d = Some e /\
    means (fun _ => None) e v /\ a = v mod 2 ^ 32 /\ a <= 2 ^ 24.

(** The address following some statements: consecutive from the last .org, within its bank. *)
Inductive next_address : list statement -> option Z -> Prop :=
| na_none : next_address [] None
| na_org : forall ss s a, org_at s a -> next_address (ss ++ [s]) (Some (a mod 2 ^ 24))
| na_later : forall ss s a, next_address ss (Some a) -> ~ is_dir D_org s ->
    next_address (ss ++ [s]) (Some (same_bank_plus a (stmt_size s)))
| na_before : forall ss s, next_address ss None -> ~ is_dir D_org s -> next_address (ss ++ [s]) None.

(** The address of the statement at position [k] (.equ has none). *)
Definition located (ss : list statement) (k : nat) (a : Z) : Prop :=
  exists before s after, ss = before ++ s :: after /\ List.length before = k /\
    (org_at s a \/ ~ is_dir D_org s /\ ~ is_dir D_equ s /\ next_address before (Some a)).

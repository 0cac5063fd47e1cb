(** Where undefined behaviour can come from. *)
From Verif Require Import Base ModelNumeric ModelExpr ModelMnemonic ModelAMode ModelState ModelInstr ModelToken ModelStatement ModelParse
  ModelMap ModelModule SpecArith SpecText SpecScope.
Open Scope list_scope.

(** A statement of one of the source files. *)
Definition in_source (files : list (list string)) (s : statement) : Prop :=
  exists file src labels, In file files /\ reads file src /\ In (labels, s) src.

(** The expressions in a statement. *)
Definition operand (s : statement) (e : expr) : Prop :=
  match s with
  | SInstr i => i_arg1 i = Some e \/ i_arg2 i = Some e
  | SDir d => d_arg d = Some e \/ In e (d_list d)
  end.
(** Those whose value is made an address.  (Every exported constant is one: module.cc:388-398
    does not distinguish constants from labels.) *)
Definition address_operand (s : statement) (e : expr) : Prop :=
  match s with
  | SInstr i => i_arg1 i = Some e /\
      (In (i_mode i) [A_rel8; A_rel16] \/ i_mode i = A_dir_l /\ In (i_mnem i) [M_jmp; M_jsl])
  | SDir d => d_arg d = Some e /\ In (d_name d) [D_org; D_remote; D_equ]
  end.

(** What a name can stand for: an address, or the value of a constant. *)
Inductive possible (files : list (list string)) : Z -> Prop :=
| p_address : forall v, 0 <= v <= 2 ^ 24 -> possible files v
| p_constant : forall d e env v, in_source files (SDir d) -> d_name d = D_equ -> d_arg d = Some e ->
    (forall i w, env i = Some w -> possible files w) -> means env e v -> possible files v.
Definition plausible (files : list (list string)) (env : fullid -> option Z) : Prop :=
  forall i w, env i = Some w -> possible files w.

(** [leaves R]: some .entry does not say the width of the accumulator (of the index registers). *)
Definition leaves_m (files : list (list string)) : Prop :=
  exists d, in_source files (SDir d) /\ d_name d = D_entry /\ fl_m (d_flags d) = B_unknown.
Definition leaves_x (files : list (list string)) : Prop :=
  exists d, in_source files (SDir d) /\ d_name d = D_entry /\ fl_x (d_flags d) = B_unknown.

Inductive ub_cause (files : list (list string)) : ub -> Prop :=
(* a constant expression is evaluated while parsing an operand *)
| c_parse : forall file line ts, In file files -> In line file -> tokenize line = Ok ts -> overflowing_operand ts ->
    ub_cause files UB_overflow
(* an expression overflows *)
| c_expression : forall s e env, in_source files s -> operand s e -> plausible files env -> overflows env e ->
    ub_cause files UB_overflow
(* an absurd bank number in a block move *)
| c_block_move : forall i e v, in_source files (SInstr i) -> In (i_mnem i) [M_mvn; M_mvp] -> i_arg1 i = Some e ->
    means (fun _ => None) e v -> 2 ^ 31 - 2 ^ 16 <= Z.abs v -> ub_cause files UB_overflow
(* a value that is not an address *)
| c_address : forall s e env v, in_source files s -> address_operand s e -> plausible files env -> means env e v ->
    2 ^ 24 < v mod 2 ^ 32 -> ub_cause files UB_assert
(* a register of unknown width is pulled *)
| c_pull : forall i u, in_source files (SInstr i) ->
    i_mnem i = M_pla /\ leaves_m files \/ In (i_mnem i) [M_plx; M_ply] /\ leaves_x files ->
    u = UB_oob \/ u = UB_assert -> ub_cause files u.

(** A sink whose Write returns. *)
Definition returns (sk : sink) : Prop := forall ws w, sk ws w = Ok tt \/ exists e, sk ws w = Err e.

(** Source text that does no arithmetic (other than <, >, ^) and writes no number beyond the
    address space. *)
Definition calm_token (t : token) : Prop :=
  match t with
  | TLit v ty => 0 <= cast_to ty v <= 2 ^ 24
  | TPunct _ => ~ In t [punct "+"; punct "-"; punct "*"; punct "/"]
  | _ => True
  end.
Definition calm (files : list (list string)) : Prop :=
  forall file line ts, In file files -> In line file -> tokenize line = Ok ts -> Forall calm_token ts.

(** Properties of constants that are pushed on the tracked stack. *)
From Verif Require Import BaseProofs ModelNumeric ModelMnemonic ModelExpr ModelAMode ModelOpcode ModelState ModelInstr.
From Verif Require Import SpecState PushProofs.
Open Scope Z_scope.

(** C19.  A constant pushed by PEA is pulled as the processor pulls it into an 8-bit register: its low byte first, then its
    high byte. *)
Theorem C19_constant : forall ctx i v s s1 l t,
  i_mnem i = M_pea -> eval_opt ctx (i_arg1 i) = Ok v -> es_stack s = Live l -> width_of t s = B_on -> execute_in ctx i s = Ok s1 ->
  exists s2 s3, pull_of t s1 = Ok s2 /\ value_of t s2 = RV_value (v mod 2 ^ 8) /\
                pull_of t s2 = Ok s3 /\ value_of t s3 = RV_value (v / 2 ^ 8 mod 2 ^ 8) /\ es_stack s3 = Live l.
Proof. exact pea_narrow. Qed.
Definition pea_1234 : instr := Instr M_pea S_none A_imm_w (Some (ELit 0x1234 T_word)) None RC_default.
Definition start_state (narrow : bitstate) : estate := estate_of_flags (RawFlags B_off narrow narrow B_unknown).
Example C19_constant_case :
  (let* s1 := execute pea_1234 (start_state B_on) in let* s2 := pull_a s1 in let* s3 := pull_x s2 in Ok (es_a s3, es_xr s3)) = Ok (RV_value 0x34, RV_value 0x12) /\
  eval_opt null_ctx (i_arg1 pea_1234) = Ok 0x1234 /\ width_of R_a (start_state B_on) = B_on /\ es_stack (start_state B_on) = Live [].
Proof. vm_compute. repeat split; reflexivity. Qed.
Print Assumptions C19_constant.

(** Into a 16-bit register the two bytes come exchanged: the tracked value is not the constant. *)
Theorem C19_constant_refuted : ~ (forall ctx i v s s1 l t,
  i_mnem i = M_pea -> eval_opt ctx (i_arg1 i) = Ok v -> es_stack s = Live l -> width_of t s = B_off -> execute_in ctx i s = Ok s1 ->
  exists s2, pull_of t s1 = Ok s2 /\ value_of t s2 = RV_value (v mod 2 ^ 16) /\ es_stack s2 = Live l).
Proof.
  intros H. destruct (H null_ctx pea_1234 0x1234 (start_state B_off) _ [] R_x eq_refl eq_refl eq_refl eq_refl eq_refl) as (s2 & P & V & _).
  vm_compute in P. injection P as <-. vm_compute in V. discriminate.
Qed.
(** What it is instead. *)
Theorem C19_exchanged : forall ctx i v s s1 l t,
  i_mnem i = M_pea -> eval_opt ctx (i_arg1 i) = Ok v -> es_stack s = Live l -> width_of t s = B_off -> execute_in ctx i s = Ok s1 ->
  exists s2, pull_of t s1 = Ok s2 /\ value_of t s2 = RV_value (2 ^ 8 * (v mod 2 ^ 8) + v / 2 ^ 8 mod 2 ^ 8) /\ es_stack s2 = Live l.
Proof. exact pea_wide. Qed.
Example C19_exchanged_case :
  (let* s1 := execute pea_1234 (start_state B_off) in let* s2 := pull_x s1 in Ok (es_xr s2)) = Ok (RV_value 0x3412).
Proof. vm_compute. reflexivity. Qed.
Print Assumptions C19_constant_refuted.
Print Assumptions C19_exchanged.

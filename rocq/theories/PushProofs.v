(** What is pulled after a constant has been pushed. *)
From Coq Require Import Lia.
From Verif Require Import BaseProofs ModelMnemonic ModelExpr ModelAMode ModelOpcode ModelState ModelInstr.
From Verif Require Import SpecState StateProofs ExecProofs.
Open Scope Z_scope.

Lemma pea_stack : forall ctx i v s s1 l, i_mnem i = M_pea -> eval_opt ctx (i_arg1 i) = Ok v -> es_stack s = Live l -> execute_in ctx i s = Ok s1 ->
  s1 = with_stack (Live (SV_byte (v mod 2 ^ 8) :: SV_byte (v / 2 ^ 8 mod 2 ^ 8) :: l)) s.
Proof.
  intros ctx i v s s1 l M E L H. unfold execute_in in H. destruct (check_consistency i (es_flags s)); try discriminate. cbn [bind] in H. rewrite M in H. unfold maybe_arg in H. rewrite E in H. cbn [bind push_word_opt] in H.
  injection H as <-. unfold push_word. rewrite L. cbn [push_sv]. f_equal. f_equal.
  assert (A : forall z, Z.land z 0xff = z mod 2 ^ 8) by (intros z; exact (Z.land_ones z 8 ltac:(lia))).
  rewrite !A, Z.shiftr_div_pow2 by lia. unfold to_uint16.
  assert (B : v mod 2 ^ 16 mod 2 ^ 8 = v mod 2 ^ 8) by (rewrite <- (Znumtheory.Zmod_div_mod (2 ^ 8) (2 ^ 16) v); [reflexivity|lia|lia|exists (2 ^ 8); reflexivity]).
  assert (C : v mod 2 ^ 16 / 2 ^ 8 mod 2 ^ 8 = v / 2 ^ 8 mod 2 ^ 8).
  { rewrite (Z.mod_eq v (2 ^ 16)) by lia. replace (v - 2 ^ 16 * (v / 2 ^ 16)) with (v + (- (2 ^ 8 * (v / 2 ^ 16))) * 2 ^ 8) by lia. rewrite Z.div_add by lia.
    replace (v / 2 ^ 8 + - (2 ^ 8 * (v / 2 ^ 16))) with (v / 2 ^ 8 + (- (v / 2 ^ 16)) * 2 ^ 8) by lia. apply Z.mod_add. lia. }
  change 65536 with (2 ^ 16). rewrite B, C. reflexivity.
Qed.
Lemma pea_narrow : forall ctx i v s s1 l t, i_mnem i = M_pea -> eval_opt ctx (i_arg1 i) = Ok v -> es_stack s = Live l -> width_of t s = B_on -> execute_in ctx i s = Ok s1 ->
  exists s2 s3, pull_of t s1 = Ok s2 /\ value_of t s2 = RV_value (v mod 2 ^ 8) /\ pull_of t s2 = Ok s3 /\ value_of t s3 = RV_value (v / 2 ^ 8 mod 2 ^ 8) /\ es_stack s3 = Live l.
Proof.
  intros ctx i v s s1 l t M E L W H. rewrite (pea_stack _ _ _ _ _ _ M E L H). destruct t; cbn [width_of] in W; cbn [pull_of value_of]; unfold pull_a, pull_x, pull_y; destruct s as [f st]; cbn in W |- *; rewrite W; cbn; eexists; eexists; (split; [reflexivity|]); cbn; rewrite W; cbn; repeat split.
Qed.
Lemma pea_wide : forall ctx i v s s1 l t, i_mnem i = M_pea -> eval_opt ctx (i_arg1 i) = Ok v -> es_stack s = Live l -> width_of t s = B_off -> execute_in ctx i s = Ok s1 ->
  exists s2, pull_of t s1 = Ok s2 /\ value_of t s2 = RV_value (2 ^ 8 * (v mod 2 ^ 8) + v / 2 ^ 8 mod 2 ^ 8) /\ es_stack s2 = Live l.
Proof.
  intros ctx i v s s1 l t M E L W H. rewrite (pea_stack _ _ _ _ _ _ M E L H).
  assert (A : forall a b, 0 <= a < 2 ^ 8 -> 0 <= b < 2 ^ 8 -> to_uint16 (Z.shiftl a 8 + b) = 2 ^ 8 * a + b).
  { intros a b A B. rewrite Z.shiftl_mul_pow2 by lia. unfold to_uint16. change 65536 with (2 ^ 16). rewrite Z.mod_small; lia. }
  pose proof (Z.mod_pos_bound v (2 ^ 8) ltac:(lia)). pose proof (Z.mod_pos_bound (v / 2 ^ 8) (2 ^ 8) ltac:(lia)).
  destruct t; cbn [width_of] in W; cbn [pull_of value_of]; unfold pull_a, pull_x, pull_y; destruct s as [f st]; cbn in W |- *; rewrite W; cbn -[to_uint16 Z.pow Z.shiftl]; rewrite A by assumption; eexists; repeat split.
Qed.

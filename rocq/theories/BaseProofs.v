(** Arithmetic and outcome lemmas shared by the proofs. *)
From Coq Require Export ZifyBool ZifyNat ZifyN.
From Verif Require Export Base.

Ltac Zify.zify_post_hook ::= Z.div_mod_to_equations.

(** ** Masks, shifts and unions as arithmetic. *)
Lemma land_1 : forall v, Z.land v 1 = v mod 2.
Proof. intros v. exact (Z.land_ones v 1 ltac:(lia)). Qed.
Lemma land_ff : forall v, Z.land v 255 = v mod 256.
Proof. intros v. exact (Z.land_ones v 8 ltac:(lia)). Qed.
Lemma land_7f : forall v, Z.land v 127 = v mod 128.
Proof. intros v. exact (Z.land_ones v 7 ltac:(lia)). Qed.
Lemma land_3f : forall v, Z.land v 63 = v mod 64.
Proof. intros v. exact (Z.land_ones v 6 ltac:(lia)). Qed.
Lemma land_7fff : forall v, Z.land v 32767 = v mod 32768.
Proof. intros v. exact (Z.land_ones v 15 ltac:(lia)). Qed.
Lemma land_ffff : forall v, Z.land v 65535 = v mod 65536.
Proof. intros v. exact (Z.land_ones v 16 ltac:(lia)). Qed.
Lemma land_ffffff : forall v, Z.land v 16777215 = v mod 16777216.
Proof. intros v. exact (Z.land_ones v 24 ltac:(lia)). Qed.

Lemma shiftr_8 : forall v, Z.shiftr v 8 = v / 256.
Proof. intros v. rewrite Z.shiftr_div_pow2 by lia. reflexivity. Qed.
Lemma shiftr_16 : forall v, Z.shiftr v 16 = v / 65536.
Proof. intros v. rewrite Z.shiftr_div_pow2 by lia. reflexivity. Qed.
Lemma shiftl_8 : forall v, Z.shiftl v 8 = v * 256.
Proof. intros v. rewrite Z.shiftl_mul_pow2 by lia. reflexivity. Qed.
Lemma shiftl_15 : forall v, Z.shiftl v 15 = v * 32768.
Proof. intros v. rewrite Z.shiftl_mul_pow2 by lia. reflexivity. Qed.
Lemma shiftl_16 : forall v, Z.shiftl v 16 = v * 65536.
Proof. intros v. rewrite Z.shiftl_mul_pow2 by lia. reflexivity. Qed.

(** Union of numbers with no common bits. *)
Lemma lor_disjoint : forall n x y, 0 <= n -> 0 <= y < 2 ^ n -> Z.lor (x * 2 ^ n) y = x * 2 ^ n + y.
Proof.
  intros n x y Hn Hy.
  assert (H : Z.land (x * 2 ^ n) y = 0).
  { apply Z.bits_inj'. intros i Hi. rewrite Z.land_spec, Z.bits_0.
    destruct (Z.ltb_spec i n).
    - rewrite Z.mul_pow2_bits_low by lia. reflexivity.
    - replace y with (y mod 2 ^ n) by (apply Z.mod_small; lia).
      rewrite Z.mod_pow2_bits_high by lia. apply andb_false_r. }
  rewrite <- Z.lxor_lor by exact H. symmetry. apply Z.add_nocarry_lxor. exact H.
Qed.
Lemma lor_16 : forall x y, 0 <= y < 65536 -> Z.lor (x * 65536) y = x * 65536 + y.
Proof. intros x y H. exact (lor_disjoint 16 x y ltac:(lia) H). Qed.
Lemma lor_16' : forall x y, 0 <= y < 65536 -> Z.lor y (x * 65536) = x * 65536 + y.
Proof. intros. rewrite Z.lor_comm. apply lor_16. assumption. Qed.
Lemma lor_15' : forall x y, 0 <= y < 32768 -> Z.lor y (x * 32768) = x * 32768 + y.
Proof. intros x y H. rewrite Z.lor_comm. exact (lor_disjoint 15 x y ltac:(lia) H). Qed.

Lemma land_ff0000 : forall v, Z.land v 16711680 = (v / 65536) mod 256 * 65536.
Proof.
  intros v. change 16711680 with (Z.shiftl 255 16).
  rewrite <- shiftl_16, <- land_ff, <- shiftr_16.
  apply Z.bits_inj'. intros i Hi.
  rewrite Z.land_spec. rewrite !Z.shiftl_spec by lia.
  destruct (Z.ltb_spec i 16).
  - rewrite !(Z.testbit_neg_r _ (i - 16)) by lia. apply andb_false_r.
  - rewrite Z.land_spec. rewrite Z.shiftr_spec by lia. f_equal. f_equal. lia.
Qed.

(** ** Conversions. *)
Lemma to_uint32_small : forall v, 0 <= v < 4294967296 -> to_uint32 v = v.
Proof. intros. apply Z.mod_small. lia. Qed.
Lemma to_int32_small : forall v, -2147483648 <= v <= 2147483647 -> to_int32 v = v.
Proof. intros v H. unfold to_int32. destruct (Z.leb_spec 2147483648 (v mod 4294967296)); lia. Qed.
Lemma in_int_iff : forall v, in_int v = true <-> -2147483648 <= v <= 2147483647.
Proof. intros v. unfold in_int, int_min, int_max. lia. Qed.
Lemma int_result_ok : forall v, -2147483648 <= v <= 2147483647 -> int_result v = Ok v.
Proof. intros v H. unfold int_result. rewrite (proj2 (in_int_iff v) H). reflexivity. Qed.

(** ** Outcomes. *)
Lemma bind_ok : forall A B (r : res A) (f : A -> res B) b,
  bind r f = Ok b -> exists a, r = Ok a /\ f a = Ok b.
Proof. intros A B [a|e|u|] f b H; try discriminate. exists a. auto. Qed.

Ltac inv H := inversion H; subst; clear H.
(** Split a hypothesis [bind r f = Ok b]. *)
Tactic Notation "bok" hyp(H) "as" simple_intropattern(p) ident(E) :=
  apply bind_ok in H; destruct H as [p [E H]]; cbn beta in H.

Global Arguments Z.mul : simpl nomatch.
Global Arguments Z.add : simpl nomatch.
Global Arguments Z.sub : simpl nomatch.
Global Arguments Z.modulo : simpl never.
Global Arguments Z.div : simpl never.
Global Arguments Z.land : simpl never.
Global Arguments Z.lor : simpl never.
Global Arguments Z.shiftl : simpl never.
Global Arguments Z.shiftr : simpl never.

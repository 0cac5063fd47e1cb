(** Proofs about decoding, encoding and instruction sizes. *)
From Verif Require Import BaseProofs ModelNumeric ModelAddress ModelMnemonic ModelExpr ModelAMode
  ModelOpcode ModelState ModelInstr ModelStatement ModelMap ModelRanges ModelModule SpecArith ArithProofs Spec65816 NameProofs
  SpecInstr.
Open Scope string_scope.
Open Scope Z_scope.

Lemma amode_eqb_eq : forall a b, amode_eqb a b = true <-> a = b.
Proof.
  intros a b. split; [|intros ->; apply Z.eqb_refl].
  destruct a, b; try reflexivity; intros H; discriminate H.
Qed.

(** ** Byte-indexed enumeration *)
Definition all_opcodes : list Z := map Z.of_nat (seq 0 256).
Lemma forall_opcodes : forall p : Z -> bool,
  forallb p all_opcodes = true -> forall op, 0 <= op < 256 -> p op = true.
Proof.
  intros p H op Hop. rewrite forallb_forall in H. apply H. unfold all_opcodes.
  apply in_map_iff. exists (Z.to_nat op). split; [lia|]. apply in_seq. lia.
Qed.

(** Re-encoding a decoded opcode. *)
Definition resolved_modes (a : amode) : list amode :=
  match a with A_imm_fm | A_imm_fx => [A_imm_b; A_imm_w] | a => [a] end.
Lemma encode_decode : forall op, 0 <= op < 256 ->
  forall a, In a (resolved_modes (snd (decode_opcode op))) ->
  encode_opcode (fst (decode_opcode op)) a = Some op.
Proof.
  assert (H : forallb (fun op => forallb (fun a =>
      match encode_opcode (fst (decode_opcode op)) a with Some o => o =? op | None => false end)
      (resolved_modes (snd (decode_opcode op)))) all_opcodes = true) by (vm_compute; reflexivity).
  intros op Hop a Ha. pose proof (forall_opcodes _ H op Hop) as E. cbv beta in E.
  rewrite forallb_forall in E. specialize (E a Ha).
  destruct (encode_opcode (fst (decode_opcode op)) a); [|discriminate].
  apply Z.eqb_eq in E. congruence.
Qed.
Lemma decode_not_pseudo : forall op, 0 <= op < 256 ->
  fst (decode_opcode op) <> PM_add /\ fst (decode_opcode op) <> PM_sub.
Proof.
  assert (H : forallb (fun op => negb (mnem_eqb (fst (decode_opcode op)) PM_add) &&
      negb (mnem_eqb (fst (decode_opcode op)) PM_sub)) all_opcodes = true) by (vm_compute; reflexivity).
  intros op Hop. pose proof (forall_opcodes _ H op Hop) as E. cbv beta in E.
  apply andb_prop in E as [E1 E2]. rewrite negb_true_iff in E1, E2.
  split; intros X; rewrite X in *; discriminate.
Qed.

(** ** The opcode table is the processor's *)
Definition form_eqb (a b : form) : bool :=
  match a, b with
  | Imp, Imp | Acc, Acc | Imm8, Imm8 | Imm16, Imm16 | ImmM, ImmM | ImmX, ImmX | Dp, Dp
  | DpX, DpX | DpY, DpY | Abs, Abs | AbsX, AbsX | AbsY, AbsY | Lng, Lng | LngX, LngX
  | IDp, IDp | IDpX, IDpX | IDpY, IDpY | IAbs, IAbs | IAbsX, IAbsX | ILDp, ILDp
  | ILDpY, ILDpY | ILAbs, ILAbs | Sr, Sr | SrY, SrY | Blk, Blk | Rel8, Rel8 | Rel16, Rel16 => true
  | _, _ => false
  end.
Lemma form_eqb_eq : forall a b, form_eqb a b = true -> a = b.
Proof. intros [] []; try reflexivity; discriminate. Qed.
Lemma decode_table : forall op, 0 <= op < 256 ->
  mnem_to_string (fst (decode_opcode op)) = op_name op /\
  form_of (snd (decode_opcode op)) = op_form op.
Proof.
  assert (H : forallb (fun op =>
      String.eqb (mnem_to_string (fst (decode_opcode op))) (op_name op) &&
      form_eqb (form_of (snd (decode_opcode op))) (op_form op)) all_opcodes = true)
    by (vm_compute; reflexivity).
  intros op Hop. pose proof (forall_opcodes _ H op Hop) as E. cbv beta in E.
  apply andb_prop in E as [E1 E2]. apply String.eqb_eq in E1. apply form_eqb_eq in E2. auto.
Qed.

(** Every successful encoding is an opcode of the table. *)
Lemma find_op_in : forall m a l op, find_op m a l = Some op -> In ((m, a), op) l.
Proof.
  intros m a l op. induction l as [|[[m' a'] o] l IH]; cbn; [discriminate|].
  destruct (mnem_eqb m m' && amode_eqb a a')%bool eqn:E; intros H; [|auto].
  apply andb_prop in E as [E1 E2]. apply mnem_eqb_eq in E1. apply amode_eqb_eq in E2.
  left. congruence.
Qed.
Lemma encode_entry : forall m a op, encode_opcode m a = Some op ->
  0 <= op < 256 /\ fst (decode_opcode op) = m /\
  (snd (decode_opcode op) = a \/ In a (resolved_modes (snd (decode_opcode op)))).
Proof.
  intros m a op H. unfold encode_opcode in H. apply find_op_in in H.
  assert (A : forallb (fun e => let '((m, a), op) := e in
     (0 <=? op) && (op <? 256) && mnem_eqb (fst (decode_opcode op)) m &&
     (amode_eqb (snd (decode_opcode op)) a ||
      existsb (amode_eqb a) (resolved_modes (snd (decode_opcode op))))) reverse_opcode_map = true)
    by (vm_compute; reflexivity).
  rewrite forallb_forall in A. apply A in H. cbv beta iota in H.
  apply andb_prop in H as [H H3]. apply andb_prop in H as [H H2]. apply andb_prop in H as [H0 H1].
  split; [lia|]. split; [apply mnem_eqb_eq; assumption|].
  apply orb_prop in H3. destruct H3 as [H3|H3].
  - left. apply amode_eqb_eq. assumption.
  - right. apply existsb_exists in H3. destruct H3 as (x & Hx & E). apply amode_eqb_eq in E.
    congruence.
Qed.
Lemma reverse_range : forall m a op, encode_opcode m a = Some op -> 0 <= op < 256.
Proof. intros m a op H. apply encode_entry in H. tauto. Qed.

(** ** Decode *)
Lemma instruction_length_form : forall a, a <> A_imm_fm -> a <> A_imm_fx ->
  forall m x, instruction_length a = 1 + operand_bytes (form_of a) m x.
Proof. intros [] H1 H2 m x; try reflexivity; contradiction. Qed.

(** The mode Decode settles on. *)
Definition decode_mode (f : flags) (a0 : amode) : option amode :=
  match a0 with
  | A_imm_fm => match known_bit (fl_m f) with Some true => Some A_imm_b | Some false => Some A_imm_w | None => None end
  | A_imm_fx => match known_bit (fl_x f) with Some true => Some A_imm_b | Some false => Some A_imm_w | None => None end
  | a => Some a
  end.
Lemma decode_eq : forall op rest f,
  decode (op :: rest) f =
  match decode_mode f (snd (decode_opcode op)) with
  | None => Err E_unknown_size
  | Some a =>
      let* (x, y) := decode_operands a rest in
      Ok (Instr (fst (decode_opcode op)) S_none a x y RC_default)
  end.
Proof.
  intros op rest f. unfold decode. destruct (decode_opcode op) as [m a0]. cbn [fst snd].
  destruct a0; try reflexivity; cbn [decode_mode].
  - destruct (fl_m f); reflexivity.
  - destruct (fl_x f); reflexivity.
Qed.
Lemma decode_mode_length : forall f op, 0 <= op < 256 ->
  match decode_mode f (snd (decode_opcode op)) with
  | Some a => known_length f op = Some (instruction_length a) /\
              In a (resolved_modes (snd (decode_opcode op))) /\ a <> A_imm_fm /\ a <> A_imm_fx
  | None => known_length f op = None
  end.
Proof.
  intros f op Hop. destruct (decode_table op Hop) as [_ E]. unfold known_length, cpu_length.
  rewrite <- E. destruct (snd (decode_opcode op)); cbn;
    try (repeat split; try discriminate; tauto).
  - destruct (fl_m f); cbn; repeat split; try discriminate; tauto.
  - destruct (fl_x f); cbn; repeat split; try discriminate; tauto.
Qed.

Lemma decode_operands_ok : forall a rest, a <> A_imm_fm -> a <> A_imm_fx ->
  ((exists p, decode_operands a rest = Ok p) /\ instruction_length a <= 1 + zlen rest) \/
  (decode_operands a rest = Err E_not_enough_bytes /\ 1 + zlen rest < instruction_length a).
Proof.
  intros a rest H1 H2. unfold zlen.
  destruct a; try contradiction; cbn [instruction_length decode_operands];
    destruct rest as [|b0 [|b1 [|b2 rest]]]; cbn [List.length];
    (left; split; [eexists; reflexivity|lia]) || (right; split; [reflexivity|lia]).
Qed.
Lemma decode_operands_prefix : forall a rest rest' p, a <> A_imm_fm -> a <> A_imm_fx ->
  decode_operands a rest = Ok p ->
  firstn (Z.to_nat (instruction_length a - 1)) rest =
  firstn (Z.to_nat (instruction_length a - 1)) rest' ->
  decode_operands a rest' = Ok p.
Proof.
  intros a rest rest' p H1 H2 H E.
  destruct a; try contradiction; cbn [decode_operands] in *;
    cbn in E; try exact H;
    destruct rest as [|b0 [|b1 [|b2 rest]]]; try discriminate H;
    destruct rest' as [|c0 [|c1 [|c2 rest']]]; cbn in E; try discriminate E;
    injection E; intros; subst; exact H.
Qed.

Lemma decode_exact : forall bytes f, bytes_ok bytes ->
  ((exists i, decode bytes f = Ok i) <->
   exists op rest n, bytes = op :: rest /\ known_length f op = Some n /\ n <= zlen bytes) /\
  (forall i, decode bytes f = Ok i ->
     exists op rest, bytes = op :: rest /\ known_length f op = Some (instr_size i) /\
       mnem_to_string (i_mnem i) = op_name op /\
       forall bytes', firstn (Z.to_nat (instr_size i)) bytes' =
                      firstn (Z.to_nat (instr_size i)) bytes -> decode bytes' f = Ok i) /\
  ((exists i, decode bytes f = Ok i) \/ exists e, decode bytes f = Err e).
Proof.
  intros bytes f Hb. destruct bytes as [|op rest].
  - split; [|split].
    + split; [intros (i & H); discriminate|intros (op & rest & n & H & _); discriminate].
    + intros i H. discriminate.
    + right. eexists. reflexivity.
  - inversion Hb as [|? ? Hop Hrest]; subst. pose proof (decode_mode_length f op Hop) as DM.
    pose proof (decode_eq op rest f) as DE.
    assert (L : zlen (op :: rest) = 1 + zlen rest) by (unfold zlen; cbn [List.length]; lia).
    destruct (decode_mode f (snd (decode_opcode op))) as [a|] eqn:EA.
    + destruct DM as (KL & _ & N1 & N2).
      destruct (decode_operands_ok a rest N1 N2) as [[[[x y] P] Le]|[P Lt]]; rewrite P in DE;
        cbn [bind] in DE.
      * split; [|split].
        -- split; [|intros _; eauto]. intros _. exists op, rest, (instruction_length a).
           repeat split; [assumption|lia].
        -- intros i H. rewrite DE in H. injection H as <-.
           destruct (decode_not_pseudo op Hop) as [P1 P2].
           assert (SZ : instr_size (Instr (fst (decode_opcode op)) S_none a x y RC_default)
                        = instruction_length a).
           { unfold instr_size. cbn [i_mode i_mnem]. destruct (fst (decode_opcode op)); lia || contradiction. }
           rewrite SZ. exists op, rest. split; [reflexivity|]. split; [assumption|].
           split; [apply (decode_table op Hop)|]. intros bytes' E.
           assert (PL : instruction_length a >= 1) by (destruct a; cbn; lia || contradiction).
           replace (Z.to_nat (instruction_length a))
             with (S (Z.to_nat (instruction_length a - 1))) in E by lia.
           destruct bytes' as [|op' rest']; [discriminate E|]. cbn [firstn] in E.
           injection E as -> E. rewrite decode_eq, EA.
           rewrite (decode_operands_prefix a rest rest' (x, y) N1 N2 P) by (symmetry; exact E).
           reflexivity.
        -- left. eauto.
      * split; [|split].
        -- split; [intros (i & H); congruence|]. intros (op' & rest' & n & E & K & Le).
           injection E as <- <-. rewrite KL in K. injection K as <-. lia.
        -- intros i H. congruence.
        -- right. eauto.
    + split; [|split].
      * split; [intros (i & H); congruence|]. intros (op' & rest' & n & E & K & Le).
        injection E as <- <-. congruence.
      * intros i H. congruence.
      * right. eauto.
Qed.

(** ** Assembling a decoded instruction *)
Lemma byte_lo : forall b, 0 <= b < 256 -> Z.land b 255 = b.
Proof. intros b H. rewrite land_ff. apply Z.mod_small. lia. Qed.

Definition pseudo_prefix (m : mnemonic) : list Z :=
  match m with PM_add => [0x18] | PM_sub => [0x38] | _ => [] end.
Definition operand_list (adr : Z) (c : lookup_ctx) (a : amode) (x y : option expr) : res (list Z) :=
  match a with
  | A_imm_fm | A_imm_fx => Err E_logic
  | A_imp | A_acc => Ok []
  | A_imm_b | A_dir_b | A_dir_bx | A_dir_by | A_ind_b | A_ind_bx | A_ind_by | A_lng_b
  | A_lng_by | A_stk | A_stk_y => let* v := eval_opt c x in Ok [v mod 256]
  | A_imm_w | A_dir_w | A_dir_wx | A_dir_wy | A_ind_w | A_ind_wx | A_lng_w =>
      let* v := eval_opt c x in Ok [v mod 256; v / 256 mod 256]
  | A_dir_l | A_dir_lx =>
      let* v := eval_opt c x in Ok [v mod 256; v / 256 mod 256; v / 65536 mod 256]
  | A_mov => let* v1 := eval_opt c x in let* v2 := eval_opt c y in Ok [v2 mod 256; v1 mod 256]
  | A_rel8 =>
      let* v1 := eval_opt c x in
      let* target := mk_address v1 in
      let* offset := subtract_wrapped target (add_wrapped adr 2) in
      if (127 <? offset) || (offset <? -128) then Err E_branch_range else Ok [offset mod 256]
  | A_rel16 =>
      let* v1 := eval_opt c x in
      let* target := mk_address v1 in
      let* offset := subtract_wrapped target (add_wrapped adr 3) in
      Ok [offset mod 65536 mod 256; offset mod 65536 / 256 mod 256]
  end.
Lemma instr_bytes_eq : forall adr c i,
  instr_bytes adr c i =
  match encode_opcode (hardware_mnemonic (i_mnem i)) (i_mode i) with
  | None => Err E_logic
  | Some op => let* l := operand_list adr c (i_mode i) (i_arg1 i) (i_arg2 i) in
               Ok (pseudo_prefix (i_mnem i) ++ op :: l)%list
  end.
Proof.
  intros adr c [m s a x y rc]. unfold instr_bytes. cbn [i_mnem i_mode i_arg1 i_arg2].
  match goal with |- (let '(_, _) := ?t in _) = _ =>
    replace t with (pseudo_prefix m, hardware_mnemonic m) by (destruct m; reflexivity) end.
  cbv beta iota. destruct (encode_opcode (hardware_mnemonic m) a) as [op|]; [|reflexivity].
  generalize (pseudo_prefix m). intros pre. unfold operand_list, to_uint8.
  destruct a; try reflexivity; destruct (eval_opt c x); cbn [bind]; try reflexivity;
    rewrite ?land_ff, ?land_ffff, ?shiftr_8, ?shiftr_16; try reflexivity;
    try (destruct (eval_opt c y); cbn [bind]; rewrite ?land_ff; reflexivity);
    destruct (mk_address _); cbn [bind]; try reflexivity;
    destruct (subtract_wrapped _ _); cbn [bind]; rewrite ?land_ff, ?land_ffff, ?shiftr_8; try reflexivity.
  destruct (_ || _)%bool; cbn [bind]; rewrite ?land_ff; reflexivity.
Qed.

(** ** Opcodes for a mnemonic and a mode *)
Lemma mnem_name_inj : forall m m', mnem_to_string m = mnem_to_string m' -> m = m'.
Proof.
  intros m m' E. assert (H : to_mnemonic (mnem_to_string m) = Some m)
    by (apply to_mnemonic_iff, same_name_refl).
  rewrite E in H. rewrite (proj2 (to_mnemonic_iff _ m') (same_name_refl _)) in H. congruence.
Qed.
Lemma form_of_inj : forall a b, form_of a = form_of b -> a = b.
Proof. intros [] []; try reflexivity; discriminate. Qed.
Lemma encode_opcode_iff : forall m a op,
  encode_opcode m a = Some op <->
  0 <= op < 256 /\ op_name op = mnem_to_string m /\ fits (op_form op) a.
Proof.
  intros m a op. split.
  - intros H. apply encode_entry in H as (R & E & M). destruct (decode_table op R) as [N F].
    split; [assumption|]. rewrite <- N, E. split; [reflexivity|]. rewrite <- F. unfold fits.
    destruct M as [->|M]; [left; reflexivity|].
    destruct (snd (decode_opcode op)); cbn in M;
      repeat (destruct M as [<-|M]); try contradiction; try (left; reflexivity); right; auto.
  - intros (R & N & F). destruct (decode_table op R) as [N' F']. rewrite N in N'.
    apply mnem_name_inj in N'. rewrite <- N'. rewrite <- F' in F. unfold fits in F.
    destruct F as [F|[F [E|E]]].
    + apply form_of_inj in F. subst a. clear F'. revert op R N N'.
      assert (H : forallb (fun op =>
        match encode_opcode (fst (decode_opcode op)) (snd (decode_opcode op)) with
        | Some o => o =? op | None => false end) all_opcodes = true) by (vm_compute; reflexivity).
      intros op R _ _. pose proof (forall_opcodes _ H op R) as E. cbv beta in E.
      destruct (encode_opcode _ _); [|discriminate]. apply Z.eqb_eq in E. congruence.
    + subst a. apply encode_decode; [assumption|].
      destruct (snd (decode_opcode op)); cbn in F; try (destruct F; discriminate); cbn; auto.
    + subst a. apply encode_decode; [assumption|].
      destruct (snd (decode_opcode op)); cbn in F; try (destruct F; discriminate); cbn; auto.
Qed.

Local Opaque encode_opcode.

(** ** Operand bytes *)
Lemma operand_list_ok : forall adr c a x y l, operand_list adr c a x y = Ok l ->
  1 + zlen l = instruction_length a /\ bytes_ok l.
Proof.
  intros adr c a x y l H. unfold operand_list in H. unfold bytes_ok, zlen.
  destruct a; try discriminate;
    repeat match type of H with
    | bind ?r _ = Ok _ => destruct r; cbn [bind] in H; try discriminate
    | (if ?b then _ else _) = Ok _ => destruct b; try discriminate
    end; injection H as <-; (split; [reflexivity|]); repeat constructor; lia.
Qed.
Lemma pseudo_prefix_len : forall m,
  zlen (pseudo_prefix m) = if is_pseudo m then 1 else 0.
Proof. destruct m; reflexivity. Qed.
Lemma pseudo_prefix_bytes : forall m, bytes_ok (pseudo_prefix m).
Proof. destruct m; repeat constructor; lia. Qed.
Lemma instr_size_eq : forall i, instr_size i = instruction_length (i_mode i) + if is_pseudo (i_mnem i) then 1 else 0.
Proof. intros [m s a x y rc]. unfold instr_size. cbn. destruct m; reflexivity. Qed.

Lemma instr_bytes_ok : forall adr c i b, instr_bytes adr c i = Ok b ->
  exists op l, encode_opcode (hardware_mnemonic (i_mnem i)) (i_mode i) = Some op /\
    operand_list adr c (i_mode i) (i_arg1 i) (i_arg2 i) = Ok l /\
    b = (pseudo_prefix (i_mnem i) ++ op :: l)%list /\
    zlen b = instr_size i /\ bytes_ok b.
Proof.
  intros adr c i b H. rewrite instr_bytes_eq in H.
  destruct (encode_opcode _ _) as [op|] eqn:E; [|discriminate].
  destruct (operand_list _ _ _ _ _) as [l| | |] eqn:L; cbn [bind] in H; try discriminate H.
  injection H as H. subst b.
  exists op, l. destruct (operand_list_ok _ _ _ _ _ _ L) as [Len By].
  repeat split.
  - rewrite instr_size_eq. pose proof (pseudo_prefix_len (i_mnem i)) as P.
    unfold zlen in *. rewrite app_length. cbn [List.length]. lia.
  - apply Forall_app. split; [apply pseudo_prefix_bytes|]. constructor; [|assumption].
    eapply reverse_range. exact E.
Qed.

(** ** Decoding then assembling *)
Lemma eval_mk_lit : forall c v t, in_type t v -> eval c (mk_lit v t) = Ok v.
Proof. intros c v t H. cbn. f_equal. apply cast_id. assumption. Qed.

Ltac pows := change (2 ^ 7) with 128 in *; change (2 ^ 8) with 256 in *; change (2 ^ 15) with 32768 in *;
  change (2 ^ 16) with 65536 in *; change (2 ^ 24) with 16777216 in *.
Lemma decode_reassemble : forall a rest x y,
  decode_operands a rest = Ok (x, y) -> bytes_ok rest ->
  a <> A_imm_fm -> a <> A_imm_fx -> a <> A_rel8 -> a <> A_rel16 ->
  forall adr c, operand_list adr c a x y = Ok (firstn (Z.to_nat (instruction_length a - 1)) rest).
Proof.
  intros a rest x y H B N1 N2 N3 N4 adr c.
  destruct a; try contradiction; cbn [decode_operands] in H;
    destruct rest as [|b0 [|b1 [|b2 rest]]]; try discriminate H; injection H as <- <-;
    unfold bytes_ok in B;
    repeat match goal with B : Forall _ (_ :: _) |- _ => inversion B; clear B; subst end;
    cbn [operand_list eval_opt];
    rewrite ?eval_mk_lit by (unfold in_type; pows; lia); cbn [bind]; f_equal;
    match goal with |- context [firstn ?n _] => let k := eval vm_compute in n in change n with k end;
    cbn [firstn];
    repeat match goal with |- _ :: _ = _ :: _ => f_equal end; try lia; reflexivity.
Qed.

Lemma decode_ok_inv : forall op rest f i, 0 <= op < 256 -> decode (op :: rest) f = Ok i ->
  exists a x y, i = Instr (fst (decode_opcode op)) S_none a x y RC_default /\
    decode_operands a rest = Ok (x, y) /\ a <> A_imm_fm /\ a <> A_imm_fx /\
    In a (resolved_modes (snd (decode_opcode op))) /\
    encode_opcode (fst (decode_opcode op)) a = Some op.
Proof.
  intros op rest f i R H. rewrite decode_eq in H. pose proof (decode_mode_length f op R) as D.
  destruct (decode_mode f (snd (decode_opcode op))) as [a|]; [|discriminate].
  destruct (decode_operands a rest) as [[x y]| | |] eqn:E; try discriminate.
  injection H as <-. destruct D as (_ & I & N1 & N2). exists a, x, y. repeat split; auto.
  apply encode_decode; assumption.
Qed.
Lemma decoded_size : forall op s a x y rc, 0 <= op < 256 ->
  instr_size (Instr (fst (decode_opcode op)) s a x y rc) = instruction_length a /\
  hardware_mnemonic (fst (decode_opcode op)) = fst (decode_opcode op) /\
  pseudo_prefix (fst (decode_opcode op)) = [].
Proof.
  intros op s a x y rc R. destruct (decode_not_pseudo op R) as [P1 P2]. unfold instr_size.
  cbn [i_mode i_mnem]. destruct (fst (decode_opcode op)); try contradiction; repeat split; lia.
Qed.
Lemma is_relative_mode : forall op, 0 <= op < 256 ->
  is_relative op = match snd (decode_opcode op) with A_rel8 | A_rel16 => true | _ => false end.
Proof.
  intros op R. destruct (decode_table op R) as [_ F]. unfold is_relative. rewrite <- F.
  destruct (snd (decode_opcode op)); reflexivity.
Qed.

Lemma decode_assemble_plain : forall op rest f i, bytes_ok (op :: rest) ->
  decode (op :: rest) f = Ok i -> is_relative op = false ->
  forall adr c, instr_bytes adr c i = Ok (firstn (Z.to_nat (instr_size i)) (op :: rest)).
Proof.
  intros op rest f i B H Rel adr c. inversion B as [|? ? R Br]; subst.
  destruct (decode_ok_inv op rest f i R H) as (a & x & y & -> & D & N1 & N2 & I & E).
  rewrite is_relative_mode in Rel by assumption.
  destruct (decoded_size op S_none a x y RC_default R) as (SZ & HW & PP).
  rewrite SZ, instr_bytes_eq. cbn [i_mnem i_mode i_arg1 i_arg2]. rewrite HW, PP, E.
  rewrite (decode_reassemble a rest x y D Br N1 N2).
  - cbn [bind app]. f_equal.
    replace (Z.to_nat (instruction_length a)) with (S (Z.to_nat (instruction_length a - 1))).
    + reflexivity.
    + destruct a; try contradiction; reflexivity.
  - intros ->. destruct (snd (decode_opcode op)); cbn in I; try discriminate Rel;
      repeat (destruct I as [I|I]; try discriminate I); assumption.
  - intros ->. destruct (snd (decode_opcode op)); cbn in I; try discriminate Rel;
      repeat (destruct I as [I|I]; try discriminate I); assumption.
Qed.

(** ** Branches *)
Lemma mk_address_range : forall t, 0 <= t <= 2 ^ 24 -> mk_address t = Ok t.
Proof.
  intros t H. change (2 ^ 24) with 16777216 in H. unfold mk_address.
  rewrite to_uint32_small by lia. destruct (Z.leb_spec t 16777216); [reflexivity|lia].
Qed.
Lemma mk_address_bad : forall t, int32 t -> ~ 0 <= t <= 2 ^ 24 -> mk_address t = UB UB_assert.
Proof.
  intros t I H. unfold int32 in I. change (2 ^ 31) with 2147483648 in I.
  change (2 ^ 24) with 16777216 in H. unfold mk_address, to_uint32.
  destruct (Z.leb_spec (t mod 4294967296) 16777216); [lia|reflexivity].
Qed.

(** The displacement computed for a branch of length [n]. *)
Lemma displacement : forall a t n, addr24 a -> 0 <= t <= 2 ^ 24 ->
  (forall d, - 2 ^ 15 <= d < 2 ^ 15 ->
     (subtract_wrapped t (add_wrapped a n) = Ok d <-> t = same_bank_plus a (n + d))) /\
  ((exists d, - 2 ^ 15 <= d < 2 ^ 15 /\ subtract_wrapped t (add_wrapped a n) = Ok d) \/
   (subtract_wrapped t (add_wrapped a n) = Err E_bank /\
    forall d, t <> same_bank_plus a (n + d))).
Proof.
  intros a t n Ha Ht.
  assert (Hb : addr24 (add_wrapped a n)) by (apply add_wrapped_24; unfold addr24 in Ha; lia).
  destruct (Z.eq_dec t (2 ^ 24)) as [->|NE].
  - assert (E : subtract_wrapped (2 ^ 24) (add_wrapped a n) = Err E_bank).
    { unfold subtract_wrapped. rewrite !addr_bank_spec. unfold addr24, bank_of in *.
      destruct (Z.eqb_spec (2 ^ 24 / 2 ^ 16) (add_wrapped a n / 2 ^ 16)); [|reflexivity].
      change (2 ^ 24) with 16777216 in *. change (2 ^ 16) with 65536 in *. lia. }
    assert (F : forall d, 2 ^ 24 <> same_bank_plus a (n + d)).
    { intros d X. pose proof (same_bank_plus_24 a (n + d) Ha) as Y. unfold addr24 in Y. lia. }
    split; [|right; auto]. intros d Hd. rewrite E. split; [discriminate|].
    intros X. exfalso. exact (F d X).
  - assert (Ht' : addr24 t) by (unfold addr24; lia).
    assert (K : forall d, add_wrapped (add_wrapped a n) d = same_bank_plus a (n + d)).
    { intros d. rewrite add_wrapped_add by assumption. apply add_wrapped_spec. assumption. }
    assert (Bk : forall d, bank_of (same_bank_plus a (n + d)) = bank_of (add_wrapped a n)).
    { intros d. rewrite <- (K d). destruct (add_wrapped_bank_offset (add_wrapped a n) d Hb). assumption. }
    split.
    + intros d Hd. rewrite subtract_wrapped_ok by assumption. rewrite K. split.
      * intros (_ & _ & E). congruence.
      * intros ->. split; [apply Bk|]. split; [lia|reflexivity].
    + destruct (subtract_wrapped_total t (add_wrapped a n) Ht' Hb) as [[d E]|[E N]].
      * left. exists d. split; [|assumption]. apply subtract_wrapped_ok in E; tauto.
      * right. split; [assumption|]. intros d X. apply N. rewrite X. apply Bk.
Qed.

Lemma signed8_mod : forall d, - 2 ^ 7 <= d < 2 ^ 7 -> signed8 (d mod 256) = d.
Proof.
  intros d H. unfold signed8. change (2 ^ 7) with 128 in *. change (2 ^ 8) with 256.
  destruct (Z.ltb_spec (d mod 256) 128); lia.
Qed.
Lemma signed16_mod : forall d, - 2 ^ 15 <= d < 2 ^ 15 ->
  signed16 (d mod 65536 mod 256 + 256 * (d mod 65536 / 256 mod 256)) = d.
Proof.
  intros d H. unfold signed16. change (2 ^ 15) with 32768 in *. change (2 ^ 16) with 65536.
  destruct (Z.ltb_spec (d mod 65536 mod 256 + 256 * (d mod 65536 / 256 mod 256)) 32768); lia.
Qed.
Lemma same_bank_plus_cong : forall a d e, d mod 2 ^ 16 = e mod 2 ^ 16 ->
  same_bank_plus a d = same_bank_plus a e.
Proof.
  intros a d e H. unfold same_bank_plus. f_equal.
  rewrite Z.add_mod, H, <- Z.add_mod; [reflexivity| |]; discriminate.
Qed.
Lemma same_bank_plus_inj : forall a n d e, - 2 ^ 15 <= d < 2 ^ 15 -> - 2 ^ 15 <= e < 2 ^ 15 ->
  same_bank_plus a (n + d) = same_bank_plus a (n + e) -> d = e.
Proof.
  unfold same_bank_plus, offset_of. intros a n d e. change (2 ^ 15) with 32768.
  change (2 ^ 16) with 65536. intros. lia.
Qed.

Lemma branch_opcodes :
  (forall m, In m short_branches -> exists op, encode_opcode m A_rel8 = Some op /\
     op_form op = Rel8 /\ op_name op = mnem_to_string m /\ hardware_mnemonic m = m /\ pseudo_prefix m = []) /\
  (forall m, In m long_branches -> exists op, encode_opcode m A_rel16 = Some op /\
     op_form op = Rel16 /\ op_name op = mnem_to_string m /\ hardware_mnemonic m = m /\ pseudo_prefix m = []).
Proof.
  split; intros m H; cbn in H;
    repeat (destruct H as [<-|H]; [eexists; repeat split; vm_compute; reflexivity|]);
    contradiction.
Qed.

Lemma branch_exact : forall a c i n k, branch_kind i n k -> addr24 a ->
  forall t, eval_opt c (i_arg1 i) = Ok t -> int32 t ->
  ((exists d, - 2 ^ (k - 1) <= d < 2 ^ (k - 1) /\ t = same_bank_plus a (n + d)) ->
     exists b, instr_bytes a c i = Ok b /\ zlen b = n /\
       op_name (hd 0 b) = mnem_to_string (i_mnem i) /\ branch_destination a b = Some t) /\
  (0 <= t <= 2 ^ 24 ->
     ~ (exists d, - 2 ^ (k - 1) <= d < 2 ^ (k - 1) /\ t = same_bank_plus a (n + d)) ->
     exists e, instr_bytes a c i = Err e) /\
  (~ 0 <= t <= 2 ^ 24 -> instr_bytes a c i = UB UB_assert).
Proof.
  intros a c [m s md x y rc] n k K Ha t Ev I32. cbn [i_arg1 i_mnem i_mode] in *.
  unfold branch_kind in K. cbn [i_mnem i_mode] in K.
  assert (R24 : forall d, t = same_bank_plus a (n + d) -> 0 <= t <= 2 ^ 24).
  { intros d E. pose proof (same_bank_plus_24 a (n + d) Ha) as H. unfold addr24 in H. lia. }
  destruct branch_opcodes as [S L].
  destruct K as [(M & -> & -> & ->)|(M & -> & -> & ->)].
  - destruct (S m M) as (op & E & F & N & HW & PP). clear S L M.
    rewrite !instr_bytes_eq. cbn [i_mnem i_mode i_arg1 i_arg2]. rewrite HW, PP, E.
    cbn [operand_list]. rewrite Ev. cbn [bind].
    change (8 - 1) with 7 in *. split; [|split].
    + intros (d & Hd & Et). specialize (R24 d Et). rewrite mk_address_range by assumption.
      cbn [bind]. destruct (displacement a t 2 Ha R24) as [D _].
      assert (Hd' : - 2 ^ 15 <= d < 2 ^ 15) by (pows; lia).
      rewrite (proj2 (D d Hd') Et). cbn [bind]. pows.
      destruct (Z.ltb_spec 127 d); [lia|]. destruct (Z.ltb_spec d (-128)); [lia|].
      cbn [orb bind app]. eexists. split; [reflexivity|]. split; [reflexivity|].
      split; [exact N|]. cbn [branch_destination]. rewrite F, signed8_mod by (pows; lia). congruence.
    + intros R NE. rewrite mk_address_range by assumption. cbn [bind].
      destruct (displacement a t 2 Ha R) as [D [(d & Hd & E2)|[E2 _]]]; rewrite E2; cbn [bind].
      * destruct ((127 <? d) || (d <? -128))%bool eqn:B; cbn [bind]; [eauto|].
        exfalso. apply NE. exists d. split; [pows; lia|]. apply (proj1 (D d Hd)). exact E2.
      * eauto.
    + intros R. rewrite mk_address_bad by assumption. reflexivity.
  - destruct (L m M) as (op & E & F & N & HW & PP). clear S L M.
    rewrite !instr_bytes_eq. cbn [i_mnem i_mode i_arg1 i_arg2]. rewrite HW, PP, E.
    cbn [operand_list]. rewrite Ev. cbn [bind].
    change (16 - 1) with 15 in *. split; [|split].
    + intros (d & Hd & Et). specialize (R24 d Et). rewrite mk_address_range by assumption.
      cbn [bind]. destruct (displacement a t 3 Ha R24) as [D _].
      rewrite (proj2 (D d Hd) Et). cbn [bind app].
      eexists. split; [reflexivity|]. split; [reflexivity|].
      split; [exact N|]. cbn [branch_destination]. rewrite F, signed16_mod by assumption. congruence.
    + intros R NE. rewrite mk_address_range by assumption. cbn [bind].
      destruct (displacement a t 3 Ha R) as [D [(d & Hd & E2)|[E2 _]]]; rewrite E2; cbn [bind].
      * exfalso. apply NE. exists d. split; [assumption|]. apply (proj1 (D d Hd)). exact E2.
      * eauto.
    + intros R. rewrite mk_address_bad by assumption. reflexivity.
Qed.
(** Every address of the same bank is reachable by a long branch. *)
Lemma long_reach : forall a t, addr24 a -> addr24 t -> bank_of t = bank_of a ->
  exists d, - 2 ^ 15 <= d < 2 ^ 15 /\ t = same_bank_plus a (3 + d).
Proof.
  intros a t Ha Ht Bk. assert (R : 0 <= t <= 2 ^ 24) by (unfold addr24 in Ht; lia).
  destruct (displacement a t 3 Ha R) as [D [(d & Hd & E)|[E N]]].
  - exists d. split; [assumption|]. apply D; assumption.
  - exfalso. apply (N (offset_of t - offset_of a - 3)).
    unfold same_bank_plus. unfold addr24, bank_of, offset_of in *. pows. lia.
Qed.

Lemma decode_assemble_relative : forall op rest f i, bytes_ok (op :: rest) ->
  decode (op :: rest) f = Ok i ->
  forall adr c t, addr24 adr ->
  branch_destination adr (firstn (Z.to_nat (instr_size i)) (op :: rest)) = Some t ->
  instr_bytes adr c (with_target t i) = Ok (firstn (Z.to_nat (instr_size i)) (op :: rest)).
Proof.
  intros op rest f i B H adr c t Ha BD. inversion B as [|? ? R Br]; subst.
  destruct (decode_ok_inv op rest f i R H) as (a & x & y & -> & D & N1 & N2 & I & E).
  destruct (decoded_size op S_none a x y RC_default R) as (SZ & HW & PP).
  unfold with_target. cbn [i_mnem i_mode i_arg1 i_arg2 i_suffix i_ret].
  rewrite SZ in *. rewrite instr_bytes_eq. cbn [i_mnem i_mode i_arg1 i_arg2]. rewrite HW, PP, E.
  destruct (decode_table op R) as [_ F].
  assert (FA : op_form op = Rel8 -> a = A_rel8).
  { intros X. rewrite <- F in X. destruct (snd (decode_opcode op)); try discriminate X.
    destruct I as [<-|[]]. reflexivity. }
  assert (FB : op_form op = Rel16 -> a = A_rel16).
  { intros X. rewrite <- F in X. destruct (snd (decode_opcode op)); try discriminate X.
    destruct I as [<-|[]]. reflexivity. }
  assert (RR : forall n d, t = same_bank_plus adr (n + d) -> 0 <= t <= 2 ^ 24).
  { intros n d X. pose proof (same_bank_plus_24 adr (n + d) Ha) as Y. unfold addr24 in Y. lia. }
  destruct (op_form op) eqn:FO;
    try (exfalso; unfold branch_destination in BD;
         destruct (firstn (Z.to_nat (instruction_length a)) (op :: rest)) as [|o [|b0 [|b1 [|]]]] eqn:FN;
         try discriminate BD;
         assert (o = op) by (destruct (Z.to_nat (instruction_length a)); cbn in FN; congruence);
         subst o; rewrite FO in BD; discriminate BD).
  - rewrite (FA eq_refl) in *. cbn [decode_operands] in D.
    destruct rest as [|b0 rest]; [discriminate D|].
    match type of BD with context [firstn ?n _] => let k := eval vm_compute in n in change n with k in * end.
    cbn [firstn] in *. unfold branch_destination in BD. rewrite FO in BD. injection BD as BD.
    inversion Br as [|? ? Rb _]; subst b0 rest.
    cbn [operand_list eval_opt eval bind]. rewrite mk_address_range by (symmetry in BD; eapply RR; exact BD).
    cbn [bind]. assert (R8 : - 2 ^ 7 <= signed8 x0 < 2 ^ 7).
    { unfold signed8. pows. destruct (Z.ltb_spec x0 128); lia. }
    destruct (displacement adr t 2 Ha) as [DD _]; [symmetry in BD; eapply RR; exact BD|].
    rewrite (proj2 (DD (signed8 x0) ltac:(pows; lia)) (eq_sym BD)). cbn [bind]. pows.
    destruct (Z.ltb_spec 127 (signed8 x0)); [lia|]. destruct (Z.ltb_spec (signed8 x0) (-128)); [lia|].
    cbn [orb bind app]. do 3 f_equal. unfold signed8. pows. destruct (Z.ltb_spec x0 128); lia.
  - rewrite (FB eq_refl) in *. cbn [decode_operands] in D.
    destruct rest as [|b0 [|b1 rest]]; try discriminate D.
    match type of BD with context [firstn ?n _] => let k := eval vm_compute in n in change n with k in * end.
    cbn [firstn] in *. unfold branch_destination in BD. rewrite FO in BD. injection BD as BD.
    inversion Br as [|? ? Rb Br']; subst. inversion Br' as [|? ? Rb1 _]; subst.
    set (w := b0 + 256 * b1) in *. assert (Rw : 0 <= w < 65536) by lia.
    cbn [operand_list eval_opt eval bind]. rewrite mk_address_range by (eapply RR; reflexivity).
    cbn [bind]. assert (R8 : - 2 ^ 15 <= signed16 w < 2 ^ 15).
    { unfold signed16. pows. destruct (Z.ltb_spec w 32768); lia. }
    destruct (displacement adr (same_bank_plus adr (3 + signed16 w)) 3 Ha) as [DD _]; [eapply RR; reflexivity|].
    rewrite (proj2 (DD (signed16 w) R8) eq_refl). cbn [bind app].
    assert (SW : signed16 w mod 65536 = w).
    { unfold signed16. pows. destruct (Z.ltb_spec w 32768); lia. }
    rewrite SW. unfold w. do 2 f_equal. f_equal; [lia|]. f_equal. lia.
Qed.

(** ** Sizes and writes *)
Lemma flat_map_length : forall n vs, List.length (flat_map (le_bytes n) vs) = (n * List.length vs)%nat.
Proof.
  intros n vs. induction vs as [|v vs IH]; cbn [flat_map List.length]; [lia|].
  rewrite app_length, le_bytes_length, IH. lia.
Qed.
Lemma flat_map_bytes : forall n vs, bytes_ok (flat_map (le_bytes n) vs).
Proof.
  intros n vs. unfold bytes_ok. apply Forall_forall. intros b H. apply in_flat_map in H.
  destruct H as (v & _ & H). eapply le_bytes_range. exact H.
Qed.
Lemma some_inj : forall A (x y : A), Some x = Some y -> x = y.
Proof. congruence. Qed.
Lemma Forall2_same_length : forall A B (P : A -> B -> Prop) l l',
  Forall2 P l l' -> List.length l = List.length l'.
Proof. intros A B P l l' H. induction H; cbn [List.length]; congruence. Qed.
Lemma directive_bytes_size : forall c d b, directive_bytes c d = Ok (Some b) ->
  zlen b = directive_size d /\ bytes_ok b.
Proof.
  intros c d b H. apply data_directives_full in H. unfold directive_size, zlen.
  destruct (d_name d); try discriminate H; destruct H as (vs & F & E); apply some_inj in E; subst b;
    apply Forall2_same_length in F; rewrite flat_map_length, F; split; try lia; apply flat_map_bytes.
Qed.
Lemma directive_bytes_none : forall c d, directive_bytes c d = Ok None -> directive_size d = 0.
Proof.
  intros c d H. apply data_directives_full in H. unfold directive_size.
  destruct (d_name d); try reflexivity; destruct H as (vs & _ & E); discriminate E.
Qed.
Lemma stmt_bytes_size : forall a c s b, stmt_bytes a c s = Ok b ->
  match b with
  | Some b => zlen b = stmt_size s /\ bytes_ok b
  | None => stmt_size s = 0
  end.
Proof.
  intros a c [i|d] b H; cbn [stmt_bytes stmt_size] in *.
  - destruct (instr_bytes a c i) as [l| | |] eqn:E; try discriminate H. injection H as <-.
    apply instr_bytes_ok in E as (op & l' & _ & _ & _ & L & B). auto.
  - destruct b as [b|]; [eapply directive_bytes_size; exact H|eapply directive_bytes_none; exact H].
Qed.
Lemma stmt_bytes_data : forall a c s, stmt_bytes a c s = Ok None ->
  exists d, s = SDir d /\ d_name d <> D_db /\ d_name d <> D_dw /\ d_name d <> D_dl.
Proof.
  intros a c [i|d] H; cbn [stmt_bytes] in H.
  - destruct (instr_bytes a c i); discriminate H.
  - exists d. apply data_directives_full in H.
    destruct (d_name d); try (destruct H as (vs & _ & H)); repeat split; discriminate.
Qed.
Lemma stmt_assemble_exact : forall sk ws a c s ws' r, stmt_assemble sk ws a c s = (ws', r) ->
  match r with
  | Ok _ =>
      (exists b, ws' = (ws ++ [(a, b)])%list /\ sk ws (a, b) = Ok tt /\
                 zlen b = stmt_size s /\ bytes_ok b) \/
      (ws' = ws /\ stmt_size s = 0 /\
       exists d, s = SDir d /\ d_name d <> D_db /\ d_name d <> D_dw /\ d_name d <> D_dl)
  | _ => ws' = ws
  end.
Proof.
  intros sk ws a c s ws' r H. unfold stmt_assemble in H.
  destruct (stmt_bytes a c s) as [[b|]| | |] eqn:E; try (injection H as <- <-; reflexivity).
  - unfold sink_write in H. destruct (sk ws (a, b)) as [[]| | |] eqn:S;
      try (injection H as <- <-; reflexivity).
    injection H as <- <-. left. exists b. pose proof (stmt_bytes_size _ _ _ _ E) as [L B]. auto.
  - injection H as <- <-. right. split; [reflexivity|].
    split; [exact (stmt_bytes_size _ _ _ _ E)|]. eapply stmt_bytes_data. exact E.
Qed.

(** ** Flags and operand width *)
Lemma fix_mode_exact : forall i f,
  (i_mode i = A_imm_fm ->
     (fl_m f = B_on -> fix_addressing_mode i f = Ok (with_mode A_imm_b i)) /\
     (fl_m f = B_off -> fix_addressing_mode i f = Ok (with_mode A_imm_w i)) /\
     (known_bit (fl_m f) = None -> exists e, fix_addressing_mode i f = Err e)) /\
  (i_mode i = A_imm_fx ->
     (fl_x f = B_on -> fix_addressing_mode i f = Ok (with_mode A_imm_b i)) /\
     (fl_x f = B_off -> fix_addressing_mode i f = Ok (with_mode A_imm_w i)) /\
     (known_bit (fl_x f) = None -> exists e, fix_addressing_mode i f = Err e)) /\
  (i_mode i <> A_imm_fm -> i_mode i <> A_imm_fx -> fix_addressing_mode i f = Ok i).
Proof.
  intros i f. unfold fix_addressing_mode. split; [|split].
  - intros ->. destruct (fl_m f); cbn; repeat split; intros; try discriminate; eauto.
  - intros ->. destruct (fl_x f); cbn; repeat split; intros; try discriminate; eauto.
  - intros N1 N2. destruct (i_mode i); try reflexivity; contradiction.
Qed.

Local Opaque imm_uses_m imm_uses_x is_legal_combination.
Lemma consistent_imm : forall i f, check_consistency i f = Ok tt ->
  (i_mode i = A_imm_b \/ i_mode i = A_imm_w) ->
  (imm_uses_m (i_mnem i) = true ->
     fl_m f = match i_mode i with A_imm_b => B_on | _ => B_off end) /\
  (imm_uses_m (i_mnem i) = false -> imm_uses_x (i_mnem i) = true ->
     fl_x f = match i_mode i with A_imm_b => B_on | _ => B_off end).
Proof.
  intros i f H M. unfold check_consistency in H.
  destruct (is_legal_combination _ _); cbn [negb] in H; [|discriminate H].
  match type of H with bind ?r _ = _ => destruct r; cbn [bind] in H; try discriminate H end.
  destruct (imm_uses_m (i_mnem i)), (imm_uses_x (i_mnem i)); destruct M as [M|M]; rewrite M in *;
    cbv iota in H;
    (split; [intros T; try discriminate T|intros T U; try discriminate T; try discriminate U]);
    destruct (fl_m f), (fl_x f); cbn in H; try discriminate H; reflexivity.
Qed.

Lemma imm_uses_form : forall m op,
  0 <= op < 256 -> op_name op = mnem_to_string (hardware_mnemonic m) ->
  (op_form op = ImmM -> imm_uses_m m = true) /\
  (op_form op = ImmX -> imm_uses_m m = false /\ imm_uses_x m = true).
Proof.
  assert (A : forallb (fun m => forallb (fun op =>
     if String.eqb (op_name op) (mnem_to_string (hardware_mnemonic m)) then
       match op_form op with
       | ImmM => imm_uses_m m
       | ImmX => negb (imm_uses_m m) && imm_uses_x m
       | _ => true
       end else true) all_opcodes) all_mnemonics = true) by (vm_compute; reflexivity).
  intros m op R N. pose proof (forall_mnemonics _ A m) as B. cbv beta in B.
  pose proof (forall_opcodes _ B op R) as C. cbv beta in C.
  rewrite N, String.eqb_refl in C. split; intros F; rewrite F in C; [assumption|].
  apply andb_prop in C as [C1 C2]. rewrite negb_true_iff in C1. auto.
Qed.

(** What is emitted for an instruction accepted under flags [f] has the length the processor
    gives it in every state allowed by [f]. *)
Lemma accepted_length : forall i f a c b m x,
  check_consistency i f = Ok tt -> instr_bytes a c i = Ok b ->
  bit_allows (fl_m f) m -> bit_allows (fl_x f) x ->
  exists op l, b = ((if is_pseudo (i_mnem i) then [if mnem_eqb (i_mnem i) PM_add then 0x18 else 0x38] else [])
                      ++ op :: l)%list /\
    op_name op = mnem_to_string (hardware_mnemonic (i_mnem i)) /\
    zlen (op :: l) = cpu_length op m x.
Proof.
  intros i f a c b m x CC IB Am Ax.
  apply instr_bytes_ok in IB as (op & l & E & OL & -> & _ & _).
  exists op, l. split; [destruct (i_mnem i); reflexivity|].
  pose proof (proj1 (encode_opcode_iff _ _ _) E) as (R & N & F). split; [assumption|].
  destruct (operand_list_ok _ _ _ _ _ _ OL) as [L _].
  replace (zlen (op :: l)) with (1 + zlen l) by (unfold zlen; cbn [List.length]; lia).
  rewrite L. unfold cpu_length.
  assert (NV : i_mode i <> A_imm_fm /\ i_mode i <> A_imm_fx).
  { split; intros X; rewrite X in OL; discriminate OL. }
  destruct F as [F|[FV FA]].
  - rewrite F. apply instruction_length_form; tauto.
  - destruct (imm_uses_form (i_mnem i) op R N) as [UM UX].
    destruct (consistent_imm i f CC FA) as [CM CX].
    destruct FV as [F|F]; rewrite F.
    + specialize (CM (UM F)). destruct FA as [FA|FA]; rewrite FA in *; rewrite CM in Am; cbn in Am; subst m; reflexivity.
    + destruct (UX F) as [U1 U2]. specialize (CX U1 U2).
      destruct FA as [FA|FA]; rewrite FA in *; rewrite CX in Ax; cbn in Ax; subst x; reflexivity.
Qed.

Lemma size_flag_lists : forall m,
  (In (mnem_to_string (hardware_mnemonic m)) m_sized <-> flag_controlling_size m = UsesM) /\
  (In (mnem_to_string (hardware_mnemonic m)) x_sized <-> flag_controlling_size m = UsesX).
Proof.
  intros m.
  assert (IN : forall s l, In s l <-> existsb (String.eqb s) l = true).
  { intros s l. rewrite existsb_exists. split.
    - intros H. exists s. split; [assumption|apply String.eqb_refl].
    - intros (y & H & E). apply String.eqb_eq in E. congruence. }
  rewrite !IN.
  destruct m; vm_compute; split; split; intros H; try reflexivity; discriminate H.
Qed.
(** The suffix test of check_consistency. *)
Lemma suffix_exact : forall i f, i_suffix i <> S_none ->
  (In (mnem_to_string (hardware_mnemonic (i_mnem i))) m_sized ->
     (i_suffix i = S_b /\ fl_m f = B_off \/ i_suffix i = S_w /\ fl_m f = B_on) ->
     exists e, check_consistency i f = Err e) /\
  (In (mnem_to_string (hardware_mnemonic (i_mnem i))) x_sized ->
     (i_suffix i = S_b /\ fl_x f = B_off \/ i_suffix i = S_w /\ fl_x f = B_on) ->
     exists e, check_consistency i f = Err e) /\
  (~ In (mnem_to_string (hardware_mnemonic (i_mnem i))) (m_sized ++ x_sized) ->
     exists e, check_consistency i f = Err e).
Proof.
  intros i f NS. destruct (size_flag_lists (i_mnem i)) as [SM SX].
  unfold check_consistency. destruct (is_legal_combination _ _); cbn [negb].
  2: { repeat split; intros; eauto. }
  match goal with |- context [flag_controlling_size ?t] =>
    replace (flag_controlling_size t) with (flag_controlling_size (i_mnem i))
      by (destruct (i_mnem i); reflexivity) end.
  rewrite in_app_iff, SM, SX. clear SM SX.
  assert (SE : suffix_eqb (i_suffix i) S_none = false) by (destruct (i_suffix i); [contradiction| |]; reflexivity).
  rewrite SE. split; [|split].
  - intros -> [[-> ->]|[-> ->]]; cbn; eauto.
  - intros -> [[-> ->]|[-> ->]]; cbn; eauto.
  - intros H. destruct (flag_controlling_size (i_mnem i)); [exfalso; auto|exfalso; auto|]. cbn. eauto.
Qed.

Lemma legal_iff : forall m a, is_legal_combination m a = true <-> exists op, encode_opcode m a = Some op.
Proof.
  intros m a. Local Transparent is_legal_combination. unfold is_legal_combination, reverse_contains.
  destruct (encode_opcode m a); split; eauto; [discriminate|]. intros (op & H). discriminate H.
Qed.
Local Opaque is_legal_combination.
Lemma legal_effective : forall m a,
  is_legal_combination (match m with PM_add | PM_sub => M_adc | m => m end) a =
  is_legal_combination (hardware_mnemonic m) a.
Proof.
  intros m a. destruct m; cbn [hardware_mnemonic];
    lazymatch goal with |- ?x = ?x => reflexivity | _ => idtac end.
  destruct a; vm_compute; reflexivity.
Qed.
Lemma imm_uses_form_inv : forall m op,
  0 <= op < 256 -> op_name op = mnem_to_string (hardware_mnemonic m) ->
  (op_form op = Imm8 \/ op_form op = Imm16) -> imm_uses_m m = false /\ imm_uses_x m = false.
Proof.
  assert (A : forallb (fun m => forallb (fun op =>
     if String.eqb (op_name op) (mnem_to_string (hardware_mnemonic m)) then
       match op_form op with
       | Imm8 | Imm16 => negb (imm_uses_m m) && negb (imm_uses_x m)
       | _ => true
       end else true) all_opcodes) all_mnemonics = true) by (vm_compute; reflexivity).
  intros m op R N F. pose proof (forall_mnemonics _ A m) as B. cbv beta in B.
  pose proof (forall_opcodes _ B op R) as C. cbv beta in C.
  rewrite N, String.eqb_refl in C. destruct F as [F|F]; rewrite F in C;
    apply andb_prop in C as [C1 C2]; rewrite negb_true_iff in C1, C2; auto.
Qed.
Lemma consistency_exact : forall i f op,
  0 <= op < 256 -> op_name op = mnem_to_string (hardware_mnemonic (i_mnem i)) ->
  fits (op_form op) (i_mode i) ->
  (check_consistency i f = Ok tt <-> suffix_agrees i f /\ width_agrees op i f) /\
  (check_consistency i f = Ok tt \/ exists e, check_consistency i f = Err e).
Proof.
  intros i f op R N F. unfold check_consistency.
  assert (L : is_legal_combination (hardware_mnemonic (i_mnem i)) (i_mode i) = true).
  { apply legal_iff. exists op. apply encode_opcode_iff. auto. }
  rewrite legal_effective, L. cbn [negb].
  destruct (size_flag_lists (i_mnem i)) as [SM SX].
  match goal with |- context [flag_controlling_size ?t] =>
    replace (flag_controlling_size t) with (flag_controlling_size (i_mnem i))
      by (destruct (i_mnem i); reflexivity) end.
  clear L.
  match goal with |- (bind ?r _ = _ <-> ?S /\ _) /\ _ =>
    assert (SFX : (r = Ok tt /\ S) \/ ((exists e, r = Err e) /\ ~ S)) end.
  { unfold suffix_agrees. destruct (i_suffix i); cbv zeta;
      change (suffix_eqb S_none S_none) with true; change (suffix_eqb S_b S_none) with false;
      change (suffix_eqb S_w S_none) with false; cbv iota; [left; auto| |]; rewrite SM, SX; clear SM SX.
    - destruct (flag_controlling_size (i_mnem i)), (fl_m f), (fl_x f); cbn;
        try (left; split; [reflexivity|]; (left; split; [reflexivity|discriminate]) ||
                                          (right; split; [reflexivity|discriminate]));
        right; (split; [eauto|]; intros [[X Y]|[X Y]]; try discriminate X; apply Y; reflexivity).
    - destruct (flag_controlling_size (i_mnem i)), (fl_m f), (fl_x f); cbn;
        try (left; split; [reflexivity|]; (left; split; [reflexivity|discriminate]) ||
                                          (right; split; [reflexivity|discriminate]));
        right; (split; [eauto|]; intros [[X Y]|[X Y]]; try discriminate X; apply Y; reflexivity). }
  destruct SFX as [[-> S]|[[e ->] S]]; cbn [bind].
  2: { split; [|eauto]. split; [discriminate|]. intros [X _]. contradiction. }
  cut (forall r, (r = Ok tt /\ width_agrees op i f) \/ ((exists e, r = Err e) /\ ~ width_agrees op i f) ->
       (r = Ok tt <-> suffix_agrees i f /\ width_agrees op i f) /\ (r = Ok tt \/ exists e, r = Err e)).
  2: { intros r [[-> W]|[[e ->] W]]; (split; [split; [intros X; try discriminate X; auto|intros [_ X]]|eauto]).
       - reflexivity.
       - contradiction. }
  intros K. apply K. clear K S. unfold width_agrees.
  destruct (imm_uses_form (i_mnem i) op R N) as [UM UX].
  pose proof (imm_uses_form_inv (i_mnem i) op R N) as UI.
  destruct F as [F|[[F|F] [A|A]]]; rewrite F in *.
  2,3: rewrite A, (UM eq_refl); destruct (fl_m f); cbn;
         try (left; split; reflexivity); right; (split; [eauto|discriminate]).
  2,3: rewrite A; destruct (UX eq_refl) as [-> ->]; destruct (fl_x f); cbn;
         try (left; split; reflexivity); right; (split; [eauto|discriminate]).
  destruct (i_mode i) eqn:EM; cbn [form_of]; try (left; split; [reflexivity|exact I]).
  - destruct (UI (or_introl eq_refl)) as [-> ->]. left. auto.
  - destruct (UI (or_intror eq_refl)) as [-> ->]. left. auto.
  - destruct (fl_m f); cbn; try (left; split; [reflexivity|discriminate]);
      right; (split; [eauto|intros X; apply X; reflexivity]).
  - destruct (fl_x f); cbn; try (left; split; [reflexivity|discriminate]);
      right; (split; [eauto|intros X; apply X; reflexivity]).
Qed.

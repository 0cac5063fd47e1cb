(** Disassembling terminates. *)
From Verif Require Import Base ModelNumeric ModelAddress ModelExpr ModelMnemonic ModelAMode ModelOpcode ModelState ModelInstr ModelMap ModelRom ModelDisasm
  SpecArith SpecState BaseProofs MapProofs ArithProofs StateProofs ParseProofs TermProofs SafeAssembleProofs DisStateProofs DisStepProofs.
Open Scope list_scope.
Open Scope Z_scope.

(** ** No part of an iteration runs out of fuel. *)
Lemma nf_operands : forall a bytes, decode_operands a bytes <> OutOfFuel.
Proof. intros a bytes. unfold decode_operands. destruct a; destruct bytes as [|b0 [|b1 [|b2 r]]]; discriminate. Qed.
Lemma nf_decode : forall bytes f, decode bytes f <> OutOfFuel.
Proof.
  intros [|op rest] f; unfold decode; [discriminate|]. destruct (decode_opcode op) as [m a0]. apply nf_bind.
  - destruct a0; try discriminate; destruct (fl_m f), (fl_x f); discriminate.
  - intros a. apply nf_bind; [apply nf_operands|]. intros [x y]. discriminate.
Qed.
Lemma nf_far : forall i a, far_branch_target i a <> OutOfFuel.
Proof.
  intros i a. unfold far_branch_target. pose proof (nf_eval (i_arg1 i)) as E.
  assert (X : forall k : Z -> res Z, (forall v, k v <> OutOfFuel) ->
    match eval_opt null_ctx (i_arg1 i) with Ok v => let* a := k v in Ok (Some a) | Err _ => Ok None | UB u => UB u | OutOfFuel => OutOfFuel end <> OutOfFuel).
  { intros k K. destruct (eval_opt null_ctx (i_arg1 i)); try discriminate; [|congruence]. apply nf_bind; [apply K|discriminate]. }
  destruct (i_mode i); try discriminate; destruct (i_mnem i); try discriminate; apply X; intros v; try discriminate; unfold mk_address; destruct (_ <=? _); discriminate.
Qed.
Lemma nf_offset : forall i, branch_offset i <> OutOfFuel.
Proof. intros i. unfold branch_offset. pose proof (nf_eval (i_arg1 i)) as E. destruct (eval_opt null_ctx (i_arg1 i)); congruence. Qed.
Lemma nf_branch : forall i s, execute_branch i s <> OutOfFuel.
Proof. intros i s. unfold execute_branch. apply nf_bind; [apply nf_execute|discriminate]. Qed.
Local Opaque check_consistency execute_in execute_branch decode far_branch_target branch_offset.

Lemma nf_new : forall src rets old pc cur w, (forall a n, src a n <> OutOfFuel) -> snd (visit_new src rets old pc cur w) <> OutOfFuel.
Proof.
  intros src rets old pc cur w S. unfold visit_new.
  assert (X : (let* bytes := src pc 4 in let* i := decode bytes (es_flags cur) in let* next := execute i cur in Ok (i, next)) <> OutOfFuel).
  { apply nf_bind; [apply S|]. intros b. apply nf_bind; [apply nf_decode|]. intros i. apply nf_bind; [apply nf_execute|discriminate]. }
  destruct (let* bytes := src pc 4 in let* i := decode bytes (es_flags cur) in let* next := execute i cur in Ok (i, next)) as [[i0 nx0]|e|u|]; try discriminate; [|congruence].
  cbv zeta. pose proof (nf_far i0 pc) as F. destruct (far_branch_target i0 pc) as [far|e|u|]; try discriminate; [|congruence].
  match goal with |- context [match far with Some _ => _ | None => _ end] => destruct (match far with Some _ => _ | None => _ end) as [[i1 nx] w0] end.
  destruct (is_local_branch i1); [|discriminate]. pose proof (nf_offset i1) as O. destruct (branch_offset i1) as [v|e|u|]; try discriminate; [|congruence].
  destruct (get_label old w0 _) as [lab lw].
  match goal with |- context [execute_branch ?i cur] => pose proof (nf_branch i cur) as B; destruct (execute_branch i cur); try discriminate; congruence end.
Qed.
Lemma nf_again : forall src pc cur d w, (forall a n, src a n <> OutOfFuel) -> visit_again src pc cur d w <> OutOfFuel.
Proof.
  intros src pc cur d w S. unfold visit_again. cbv zeta. destruct (es_eqb _ _); [discriminate|].
  apply nf_bind; [specialize (S pc 4); destruct (src pc 4); congruence|]. intros b. apply nf_bind; [apply nf_decode|]. intros i0.
  apply nf_bind; [apply nf_execute|]. intros nx. apply nf_bind; [apply nf_far|]. intros far. destruct (is_local_branch _); [|discriminate].
  apply nf_bind; [apply nf_branch|]. intros bs. apply nf_bind; [apply nf_offset|discriminate].
Qed.
Lemma nf_disasm : forall src rets old w, (forall a n, src a n <> OutOfFuel) -> snd (disasm_step src rets old w) <> OutOfFuel.
Proof.
  intros src rets old w S. unfold disasm_step. destruct (dw_stack w) as [|[pc cur] rest]; [discriminate|].
  destruct (get_instruction old (dw_new (dw_set_stack rest w)) pc) as [[d|] new]; [apply nf_again; exact S|apply nf_new; exact S].
Qed.

(** ** The measure. *)
Definition total (f : Z -> nat) (U : list Z) : nat := fold_right (fun a n => (f a + n)%nat) 0%nat U.
Lemma total_le : forall f g U, (forall a, (f a <= g a)%nat) -> (total f U <= total g U)%nat.
Proof. intros f g U H. induction U as [|a U IH]; [reflexivity|]. cbn [total fold_right]. fold (total f U) (total g U). specialize (H a). lia. Qed.
Lemma total_lt : forall f g U b, (forall a, (f a <= g a)%nat) -> In b U -> (f b < g b)%nat -> (total f U < total g U)%nat.
Proof.
  intros f g U b H I L. induction U as [|a U IH]; [destruct I|]. cbn [total fold_right]. fold (total f U) (total g U). destruct I as [->|I].
  - pose proof (total_le f g U H). lia.
  - specialize (IH I). specialize (H a). lia.
Qed.
Definition missing (V : Z -> option dinstr) (a : Z) : nat := match V a with None => 1%nat | Some _ => 0%nat end.
Definition weight (V : Z -> option dinstr) (a : Z) : nat := match V a with None => 0%nat | Some d => rank (di_cur d) end.
Lemma total_ext : forall f g U, (forall a, f a = g a) -> total f U = total g U.
Proof. intros f g U H. induction U as [|a U IH]; [reflexivity|]. cbn [total fold_right]. rewrite H. f_equal. exact IH. Qed.

Definition keys_in (U : list Z) (st : omap estate) : Prop := forall a s, om_find a st = Some s -> In a U.
(** What an iteration does to the map and to the worklist. *)
Lemma step_progress : forall src rets old U w w', (forall a, In a U -> 0 <= a) -> (forall a, addr24 a -> In a U) ->
  sorted_keys (dw_new w) -> sorted_keys (dw_stack w) -> keys_in U (dw_stack w) -> dw_stack w <> [] ->
  snd (disasm_step src rets old w) = Ok w' ->
  let V := view old (dw_new w) in let V' := view old (dw_new w') in
  sorted_keys (dw_new w') /\ sorted_keys (dw_stack w') /\ keys_in U (dw_stack w') /\
  ((total (missing V') U < total (missing V) U)%nat \/
   (total (missing V') U = total (missing V) U /\ (total (weight V') U < total (weight V) U)%nat) \/
   (total (missing V') U = total (missing V) U /\ total (weight V') U = total (weight V) U /\ (List.length (dw_stack w') < List.length (dw_stack w))%nat)).
Proof.
  intros src rets old U w w' UP UA SN SS K NE H. unfold disasm_step in H. destruct (dw_stack w) as [|[pc cur] rest] eqn:ST; [congruence|].
  cbn [dw_set_stack dw_new] in H. destruct (get_instruction old (dw_new w) pc) as [found new] eqn:G.
  destruct (get_spec _ _ _ _ _ SN G) as (FV & SN' & VE & _ & FN).
  assert (PU : In pc U) by (apply (K pc cur); cbn; rewrite Z.eqb_refl; reflexivity).
  assert (SR : sorted_keys rest) by apply SS.
  assert (KR : keys_in U rest).
  { intros a s F. apply (K a s). cbn. destruct (Z.eqb_spec pc a) as [<-|N]; [|exact F]. destruct SS as [SS _]. apply om_find_in in F. apply SS in F. lia. }
  assert (ADDR : forall n m, In (add_wrapped (add_wrapped pc n) m) U /\ In (add_wrapped pc n) U).
  { intros n m. pose proof (add_wrapped_range pc n (UP _ PU)) as R. split; apply UA; [|exact R]. apply add_wrapped_range. apply R. }
  assert (PUSH : forall ps, (forall a s, In (a, s) ps -> In a U) -> keys_in U (push_all ps rest)).
  { intros ps P a s F. destruct (push_all_keys _ _ _ _ SR F) as [[s' X]|[s' X]]; [eapply KR; exact X|eapply P; exact X]. }
  destruct found as [d|].
  - cbn [snd] in H. apply visit_again_spec in H. cbv zeta in H. specialize (FN d eq_refl). rewrite FV in FN. symmetry in FV.
    destruct H as [[B ->]|(NB & bytes & i0 & nx & far & ps & _ & _ & _ & _ & PS & ->)]; cbn [dw_set_new dw_set_stack dw_new dw_stack].
    + split; [exact SN'|]. split; [exact SR|]. split; [exact KR|]. right. right.
      split; [apply total_ext; intros a; unfold missing; rewrite VE; reflexivity|]. split; [apply total_ext; intros a; unfold weight; rewrite VE; reflexivity|cbn; lia].
    + split; [apply om_set_sorted; exact SN'|]. split; [apply push_all_sorted; exact SR|]. split.
      { apply PUSH. intros a s I. apply in_app_or in I. destruct I as [I|I].
        - unfold falls in I. destruct (is_exit_instruction (di_instr d)); [destruct I|]. destruct I as [E|[]]. injection E as <- <-. apply ADDR. exact 0.
        - destruct PS as [[_ ->]|(_ & v & bs & _ & _ & ->)]; [destruct I|]. destruct I as [E|[]]. injection E as <- <-. apply ADDR. }
      right. left. set (nd := DInstr (di_label d) (di_instr d) (di_entry d) (es_merge cur (di_cur d)) nx).
      assert (VN : forall a, view old (om_set pc nd new) a = if pc =? a then Some nd else view old (dw_new w) a).
      { intros a. rewrite <- VE. unfold view. rewrite om_find_set by exact SN'. destruct (pc =? a); reflexivity. }
      assert (R : (rank (es_merge cur (di_cur d)) < rank (di_cur d))%nat).
      { rewrite es_merge_comm. destruct (merge_rises (di_cur d) cur) as [E|L]; [|exact L]. destruct NB. unfold below. rewrite es_merge_comm. exact E. }
      split.
      * apply total_ext. intros a. unfold missing. rewrite VN. destruct (Z.eqb_spec pc a) as [<-|N]; [rewrite FV|]; reflexivity.
      * apply total_lt with pc; [|exact PU|].
        -- intros a. unfold weight. rewrite VN. destruct (Z.eqb_spec pc a) as [<-|N]; [rewrite FV; cbn [di_cur nd]; lia|lia].
        -- unfold weight. rewrite VN, Z.eqb_refl, FV. exact R.
  - destruct (visit_new src rets old pc cur (dw_set_new new (dw_set_stack rest w))) as [w1 r] eqn:VN0. cbn [snd] in H. subst r.
    apply visit_new_spec in VN0. destruct VN0 as (bytes & i0 & nx0 & far & i & lw & ps & VN0). cbv zeta in VN0.
    destruct VN0 as (_ & _ & _ & _ & LB & ->). cbn [dw_set_new dw_set_stack dw_new dw_stack].
    split; [apply om_set_sorted; exact SN'|]. split; [apply push_all_sorted; exact SR|]. split.
    + apply PUSH. intros a s I. apply in_app_or in I. destruct I as [I|I].
      * destruct LB as [_|v lab lw bs _ _ _ _]; [destruct I|]. destruct I as [E|[]]. injection E as <- <-. apply ADDR.
      * unfold falls in I. destruct (is_exit_instruction i); [destruct I|]. destruct I as [E|[]]. injection E as <- <-. apply ADDR. exact 0.
    + left. symmetry in FV. set (nd := DInstr "" i false cur (after_call far (called rets far i0) nx0)).
      assert (VN : forall a, view old (om_set pc nd new) a = if pc =? a then Some nd else view old (dw_new w) a).
      { intros a. rewrite <- VE. unfold view. rewrite om_find_set by exact SN'. destruct (pc =? a); reflexivity. }
      apply total_lt with pc; [|exact PU|].
      * intros a. unfold missing. rewrite VN. destruct (pc =? a); [destruct (view old (dw_new w) a); lia|lia].
      * unfold missing. rewrite VN, Z.eqb_refl, FV. lia.
Qed.

Lemma loop_ends : forall src rets old U, (forall a n, src a n <> OutOfFuel) -> (forall a, In a U -> 0 <= a) -> (forall a, addr24 a -> In a U) ->
  forall n1 n2 n3 w, sorted_keys (dw_new w) -> sorted_keys (dw_stack w) -> keys_in U (dw_stack w) ->
  (total (missing (view old (dw_new w))) U < n1)%nat -> (total (weight (view old (dw_new w))) U < n2)%nat -> (List.length (dw_stack w) < n3)%nat ->
  exists N, forall fuel, (N <= fuel)%nat -> snd (disasm_loop fuel src rets old w) <> OutOfFuel.
Proof.
  intros src rets old U SF UP UA. induction n1 as [|n1 IH1]; [intros; lia|]. induction n2 as [|n2 IH2]; [intros; lia|]. induction n3 as [|n3 IH3]; [intros; lia|].
  intros w SN SS K L1 L2 L3. destruct (dw_stack w) as [|p st] eqn:ST.
  - exists 0%nat. intros fuel _. destruct fuel; cbn [disasm_loop]; rewrite ST; discriminate.
  - destruct (disasm_step src rets old w) as [w1 r] eqn:DS. destruct r as [w'|e|u|].
    + assert (X : exists N, forall fuel, (N <= fuel)%nat -> snd (disasm_loop fuel src rets old w') <> OutOfFuel).
      { rewrite <- ST in SS, K, L3. destruct (step_progress src rets old U w w' UP UA SN SS K) as (SN' & SS' & K' & C); [congruence|rewrite DS; reflexivity|]. cbv zeta in C.
        destruct C as [C|[[C1 C2]|(C1 & C2 & C3)]].
        - eapply (IH1 (Datatypes.S _) (Datatypes.S _)); [exact SN'|exact SS'|exact K'|lia|apply Nat.lt_succ_diag_r|apply Nat.lt_succ_diag_r].
        - eapply (IH2 (Datatypes.S _)); [exact SN'|exact SS'|exact K'|lia|lia|apply Nat.lt_succ_diag_r].
        - apply IH3; [exact SN'|exact SS'|exact K'|lia|lia|lia]. }
      destruct X as [N X]. exists (Datatypes.S N). intros [|f] L; [lia|]. cbn [disasm_loop]. rewrite ST, DS. apply X. lia.
    + exists 1%nat. intros [|f] L; [lia|]. cbn [disasm_loop]. rewrite ST, DS. discriminate.
    + exists 1%nat. intros [|f] L; [lia|]. cbn [disasm_loop]. rewrite ST, DS. discriminate.
    + exfalso. apply (nf_disasm src rets old w SF). rewrite DS. reflexivity.
Qed.

Lemma addresses : exists U, (forall a, In a U -> 0 <= a) /\ forall a, 0 <= a <= 2 ^ 24 -> In a U.
Proof.
  assert (X : forall b, 0 <= b -> exists U, (forall a, In a U -> 0 <= a) /\ forall a, 0 <= a <= b -> In a U).
  { apply natlike_ind.
    - exists [0]. split; [intros a [<-|[]]; lia|]. intros a A. left. lia.
    - intros b B (U & P & A). exists (Z.succ b :: U). split; [intros a [<-|I]; [lia|auto]|]. intros a R.
      destruct (Z.eq_dec a (Z.succ b)) as [->|N]; [left; reflexivity|right; apply A; lia]. }
  apply X. lia.
Qed.
Lemma nf_labels : forall ls m, apply_labels ls m <> OutOfFuel.
Proof. induction ls as [|[a s] ls IH]; intros m; cbn [apply_labels]; [discriminate|]. destruct (om_find a m); [apply IH|discriminate]. Qed.
Lemma disassemble_terminates : forall src start f d, (forall a n, src a n <> OutOfFuel) -> 0 <= start <= 2 ^ 24 ->
  exists N, forall fuel, (N <= fuel)%nat -> snd (disassemble fuel src start f d) <> OutOfFuel.
Proof.
  intros src start f d SF R. destruct addresses as (U & UP & UA). unfold disassemble.
  destruct (get_label (ds_map d) (DWork [] [] (om_set start (estate_of_flags f) []) [] (ds_sym d)) start) as [lab w] eqn:GL.
  destruct (get_label_rest _ _ _ _ _ GL) as (N0 & S0 & _). cbn [dw_new dw_stack om_set] in N0, S0.
  destruct (loop_ends src (ds_rets d) (ds_map d) U SF UP (fun a A => UA a ltac:(destruct A; lia)) 
    (Datatypes.S (total (missing (view (ds_map d) (dw_new w))) U)) (Datatypes.S (total (weight (view (ds_map d) (dw_new w))) U)) (Datatypes.S (List.length (dw_stack w))) w) as [N H].
  - rewrite N0. exact I.
  - rewrite S0. split; [intros ? ? []|exact I].
  - rewrite S0. intros a s F. cbn in F. destruct (Z.eqb_spec start a) as [<-|X]; [|discriminate F]. apply UA. exact R.
  - apply Nat.lt_succ_diag_r.
  - apply Nat.lt_succ_diag_r.
  - apply Nat.lt_succ_diag_r.
  - exists N. intros fuel L. specialize (H fuel L). destruct (disasm_loop fuel src (ds_rets d) (ds_map d) w) as [w' [w''|e|u|]]; cbn [snd] in *; try discriminate; [|congruence].
    match goal with |- context [apply_labels ?a ?b] => pose proof (nf_labels a b) as A; destruct (apply_labels a b); try discriminate; congruence end.
Qed.

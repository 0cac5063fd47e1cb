(** What the messages about an operand advise. *)
From Verif Require Import BaseProofs ModelNumeric ModelMnemonic ModelExpr ModelAMode ModelOpcode
  ModelState ModelInstr ModelToken ModelStatement ModelParse ModelAddress ModelMap ModelRom ModelTools ModelLocation ModelRomText ModelInteractive
  ModelParseText SpecParseText NameProofs BlameProofs.
Open Scope string_scope.
Open Scope list_scope.
Open Scope Z_scope.

Fixpoint endsb (text tail : string) : bool :=
  String.eqb text tail || match text with EmptyString => false | String _ r => endsb r tail end.
Lemma ends_b : forall text tail, ends text tail -> endsb text tail = true.
Proof.
  intros text tail (a & ->). induction a as [|c a IH].
  - change ("" ++ tail)%string with tail. destruct tail; [reflexivity|]. cbn [endsb]. rewrite String.eqb_refl. reflexivity.
  - change (String c a ++ tail)%string with (String c (a ++ tail)). cbn [endsb]. rewrite IH. apply Bool.orb_true_r.
Qed.
Definition sample (known : bool) : option expr := if known then Some (ELit 0 T_byte) else None.
Lemma text_kinds : forall m s a1 a2, deduce_text m s a1 a2 = deduce_text m s (sample (negb (ntype_eqb (type_opt a1) T_unknown))) None.
Proof. intros m s a1 a2. unfold deduce_text. destruct (ntype_eqb (type_opt a1) T_unknown); reflexivity. Qed.
Definition is_ok {A} (r : res A) : bool := match r with Ok _ => true | _ => false end.
Definition all_samodes : list samode := [SA_imp; SA_acc; SA_imm; SA_dir; SA_dir_x; SA_dir_y; SA_ind; SA_ind_x; SA_ind_y; SA_lng; SA_lng_y; SA_stk; SA_stk_y; SA_mov].
Lemma all_samodes_all : forall s, In s all_samodes.
Proof. intros []; cbn; tauto. Qed.
Definition byte_arg : option expr := Some (ELit 0 T_byte).
Definition asks_right (m : mnemonic) (s : samode) (k : bool) : bool :=
  let text := deduce_text m s (sample k) None in
  forallb (fun q => implb (endsb text (fst q)) (is_ok (deduce_mode m s (Some (ELit 0 (snd q))) None))) requests &&
  implb (endsb text " must be bytes") (is_ok (deduce_mode m s byte_arg byte_arg)) &&
  implb (endsb text " requires arguments") (match s with SA_imp => true | _ => false end && (is_ok (deduce_mode m SA_imp None None) ||
    existsb (fun s => negb (match s with SA_imp => true | _ => false end) && (existsb (fun ty => is_ok (deduce_mode m s (Some (ELit 0 ty)) byte_arg)) [T_byte; T_word; T_long])) all_samodes)) &&
  implb (endsb text " requires a named branch target.") (is_branch_mnemonic m).
Lemma asks_right_all : forallb (fun m => forallb (fun s => asks_right m s true && asks_right m s false) all_samodes) all_mnemonics = true.
Proof. vm_compute. reflexivity. Qed.
Lemma asks_right_one : forall m s k, asks_right m s k = true.
Proof.
  intros m s k. pose proof (forall_mnemonics _ asks_right_all m) as A. cbv beta in A. rewrite forallb_forall in A. specialize (A s (all_samodes_all s)). apply andb_prop in A. destruct A as [A B]. destruct k; assumption.
Qed.
Lemma by_size : forall m s v ty a2, In ty [T_byte; T_word; T_long] -> s <> SA_mov -> deduce_mode m s (Some (ELit v ty)) a2 = deduce_mode m s (Some (ELit 0 ty)) None.
Proof. intros m s v ty a2 I N. destruct I as [<-|[<-|[<-|[]]]]; destruct s; try reflexivity; congruence. Qed.
Lemma is_ok_some : forall A (r : res A), is_ok r = true -> exists a, r = Ok a.
Proof. intros A [a|e|u|] H; try discriminate. exists a. reflexivity. Qed.
Lemma mov_texts : forall m k tail ty, In (tail, ty) requests -> endsb (deduce_text m SA_mov (sample k) None) tail = false.
Proof.
  assert (F : forallb (fun m => forallb (fun q => negb (endsb (deduce_text m SA_mov (sample true) None) (fst q)) && negb (endsb (deduce_text m SA_mov (sample false) None) (fst q))) requests) all_mnemonics = true) by (vm_compute; reflexivity).
  intros m k tail ty I. pose proof (forall_mnemonics _ F m) as A. cbv beta in A. rewrite forallb_forall in A. specialize (A _ I). apply andb_prop in A. destruct A as [A B]. apply Bool.negb_true_iff in A, B. destruct k; assumption.
Qed.
Lemma size_advice : forall m s a1 a2 tail ty v, In (tail, ty) requests -> ends (deduce_text m s a1 a2) tail -> exists am, deduce_mode m s (Some (ELit v ty)) a2 = Ok am.
Proof.
  intros m s a1 a2 tail ty v I E. rewrite text_kinds in E. apply ends_b in E. set (k := negb _) in E.
  assert (N : s <> SA_mov) by (intros ->; rewrite (mov_texts m k tail ty I) in E; discriminate).
  pose proof (asks_right_one m s k) as A. unfold asks_right in A. cbv zeta in A. apply andb_prop in A. destruct A as [A _]. apply andb_prop in A. destruct A as [A _]. apply andb_prop in A. destruct A as [A _].
  rewrite forallb_forall in A. specialize (A _ I). cbn [fst snd] in A. rewrite E in A. cbn [implb] in A. rewrite by_size; [exact (is_ok_some _ _ A)| |exact N].
  destruct I as [I|[I|[I|[I|[I|[I|[I|[]]]]]]]]; injection I as _ <-; cbn; tauto.
Qed.
Lemma bytes_advice : forall m s a1 a2 v w, ends (deduce_text m s a1 a2) " must be bytes" -> exists am, deduce_mode m s (Some (ELit v T_byte)) (Some (ELit w T_byte)) = Ok am.
Proof.
  intros m s a1 a2 v w E. rewrite text_kinds in E. apply ends_b in E. set (k := negb _) in E. pose proof (asks_right_one m s k) as A. unfold asks_right in A. cbv zeta in A.
  apply andb_prop in A. destruct A as [A _]. apply andb_prop in A. destruct A as [A _]. apply andb_prop in A. destruct A as [_ A]. rewrite E in A. cbn [implb] in A.
  replace (deduce_mode m s (Some (ELit v T_byte)) (Some (ELit w T_byte))) with (deduce_mode m s byte_arg byte_arg) by reflexivity. exact (is_ok_some _ _ A).
Qed.
Lemma branch_advice : forall m s a1 a2 name, ends (deduce_text m s a1 a2) " requires a named branch target." -> exists am, deduce_mode m SA_dir (Some (EId (FullId None name) T_word)) None = Ok am.
Proof.
  intros m s a1 a2 name E. rewrite text_kinds in E. apply ends_b in E. set (k := negb _) in E. pose proof (asks_right_one m s k) as A. unfold asks_right in A. cbv zeta in A.
  apply andb_prop in A. destruct A as [_ A]. rewrite E in A. cbn [implb] in A. unfold deduce_mode. rewrite A. eexists. reflexivity.
Qed.
Lemma arguments_advice : forall m s a1 a2 e, deduce_mode m s a1 a2 = Err e -> ends (deduce_text m s a1 a2) " requires arguments" -> s = SA_imp /\ exists s' b1 b2 am, s' <> SA_imp /\ deduce_mode m s' b1 b2 = Ok am.
Proof.
  intros m s a1 a2 e D E. rewrite text_kinds in E. apply ends_b in E. set (k := negb _) in E. pose proof (asks_right_one m s k) as A. unfold asks_right in A. cbv zeta in A.
  apply andb_prop in A. destruct A as [A _]. apply andb_prop in A. destruct A as [_ A]. rewrite E in A. cbn [implb] in A. apply andb_prop in A. destruct A as [A B]. destruct s; try discriminate. split; [reflexivity|].
  change (deduce_mode m SA_imp a1 a2) with (deduce_mode m SA_imp None None) in D. rewrite D in B. cbn [is_ok orb] in B. apply existsb_exists in B. destruct B as (s' & _ & B). apply andb_prop in B. destruct B as [B C].
  apply existsb_exists in C. destruct C as (ty & _ & C). destruct (is_ok_some _ _ C) as (am & C1). exists s', (Some (ELit 0 ty)), byte_arg, am. split; [intros ->; discriminate|exact C1].
Qed.
Definition declines (m : mnemonic) (s : samode) : bool :=
  within " does not take " (deduce_text m s (sample true) None) || within " does not take " (deduce_text m s (sample false) None).
Definition declined (m : mnemonic) (s : samode) : bool :=
  match s with
  | SA_imp => false
  | SA_acc | SA_imm => negb (is_ok (deduce_mode m s byte_arg None))
  | SA_mov => negb (is_ok (deduce_mode m s byte_arg byte_arg))
  | _ => negb (is_ok (deduce_mode m s byte_arg None)) && negb (is_ok (deduce_mode m s (Some (ELit 0 T_word)) None)) && negb (is_ok (deduce_mode m s (Some (ELit 0 T_long)) None))
  end.
Lemma declines_all : forallb (fun m => forallb (fun s => implb (declines m s) ((declined m s || match s with SA_acc | SA_imm => true | _ => false end) && negb (is_branch_mnemonic m))) all_samodes) all_mnemonics = true.
Proof. vm_compute. reflexivity. Qed.
Lemma takes_not_advice : forall m s a1 a2 e, deduce_mode m s a1 a2 = Err e -> mentions (deduce_text m s a1 a2) " does not take " -> forall b1 b2 am, deduce_mode m s b1 b2 <> Ok am.
Proof.
  intros m s a1 a2 e E M b1 b2 am. rewrite text_kinds in M. apply mentions_within in M.
  assert (D : declines m s = true) by (unfold declines; destruct (negb _); rewrite M; [reflexivity|apply Bool.orb_true_r]).
  pose proof (forall_mnemonics _ declines_all m) as A. cbv beta in A. rewrite forallb_forall in A. specialize (A s (all_samodes_all s)). rewrite D in A. cbn [implb] in A. clear M.
  apply andb_prop in A. destruct A as [A B]. apply Bool.negb_true_iff in B. unfold deduce_mode in E |- *. rewrite B in E |- *. destruct (argument_is_address s && ntype_eqb (type_opt b1) _) eqn:U; [discriminate|].
  destruct s.
  2, 3: clear A; destruct m; try discriminate E; try discriminate B; try discriminate; vm_compute in D; discriminate D.
  all: clear D E; destruct m; try discriminate A; try discriminate B; discriminate.
Qed.
Lemma created : forall l m s b1 b2 am, deduce_mode m s b1 b2 = Ok am -> exists i, t_create_instruction l m S_none s b1 b2 = POk i.
Proof. intros l m s b1 b2 am H. unfold t_create_instruction. rewrite H. eexists. reflexivity. Qed.
Lemma advised : forall l m sfx s a1 a2 e, t_create_instruction l m sfx s a1 a2 = PErr e -> re_kind e = E_no_mode ->
  (forall tail ty v, In (tail, ty) requests -> ends (re_text e) tail -> exists i, t_create_instruction l m S_none s (Some (ELit v ty)) a2 = POk i) /\
  (ends (re_text e) " must be bytes" -> forall v w, exists i, t_create_instruction l m S_none s (Some (ELit v T_byte)) (Some (ELit w T_byte)) = POk i) /\
  (ends (re_text e) " requires a named branch target." -> forall name, exists i, t_create_instruction l m S_none SA_dir (Some (EId (FullId None name) T_word)) None = POk i) /\
  (ends (re_text e) " requires arguments" -> s = SA_imp /\ exists s' b1 b2 i, s' <> SA_imp /\ t_create_instruction l m S_none s' b1 b2 = POk i) /\
  (mentions (re_text e) " does not take " -> forall sfx' b1 b2 i, t_create_instruction l m sfx' s b1 b2 <> POk i).
Proof.
  intros l m sfx s a1 a2 e H K. unfold t_create_instruction in H. destruct (deduce_mode m s a1 a2) as [am|e0|u|] eqn:D; try discriminate.
  { destruct (_ && _); [|discriminate]. injection H as <-. discriminate. }
  injection H as <-. cbn [re_text re_kind] in *. repeat split.
  - intros tail ty v I E. destruct (size_advice _ _ _ _ _ _ v I E) as (am & A). exact (created _ _ _ _ _ _ A).
  - intros E v w. destruct (bytes_advice _ _ _ _ v w E) as (am & A). exact (created _ _ _ _ _ _ A).
  - intros E name. destruct (branch_advice _ _ _ _ name E) as (am & A). exact (created _ _ _ _ _ _ A).
  - exact (proj1 (arguments_advice _ _ _ _ _ D H)).
  - destruct (proj2 (arguments_advice _ _ _ _ _ D H)) as (s' & b1 & b2 & am & N & A). destruct (created l _ _ _ _ _ A) as (i & I). exists s', b1, b2, i. split; assumption.
  - intros M sfx' b1 b2 i A. unfold t_create_instruction in A. destruct (deduce_mode m s b1 b2) as [am|e1|u|] eqn:D1; try discriminate. exact (takes_not_advice _ _ _ _ _ D M _ _ _ D1).
Qed.

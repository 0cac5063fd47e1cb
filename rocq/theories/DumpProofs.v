(** Proofs about util/quick_dump.cc: what it prints assembles to what the image has. *)
From Verif Require Import Base ModelNumeric ModelAddress ModelMnemonic ModelExpr ModelAMode ModelOpcode ModelState ModelInstr ModelToken ModelStatement ModelParse ModelMap ModelRanges ModelModule ModelAssembler ModelRom ModelDisasm
  SpecArith SpecText SpecInstr SpecRanges SpecRom SpecSink BaseProofs TokenProofs TextProofs ParseProofs PrintProofs ArithProofs MapProofs RangesProofs RomProofs SinkProofs ModelTools SpecDump ToolTextProofs ToolProofs.
Open Scope string_scope.
Open Scope list_scope.
Open Scope Z_scope.

(** ** Text. *)
Definition lit (t : ntype) (v : Z) : expr := ELit v t.
Definition small_type (t : ntype) : Prop := t = T_byte \/ t = T_word \/ t = T_long.
Fixpoint list_tokens (t : ntype) (vs : list Z) : list token :=
  match vs with
  | [] => []
  | [v] => [TLit v t]
  | v :: vs' => TLit v t :: punct "," :: list_tokens t vs'
  end.
Local Opaque tokenize.
Lemma join_lex : forall t vs, small_type t -> Forall (fun v => cast_to t v = v) vs -> vs <> [] -> tokenize (join (map (fun v => lit_to_string v t) vs)) = Ok (list_tokens t vs ++ [TEol]).
Proof.
  intros t vs T F. induction F as [|v vs C F IH]; intros N; [congruence|]. destruct vs as [|w vs].
  - cbn [map join list_tokens]. pose proof (lex_lit v t T C "" [TEol] eq_refl ends_eol) as L. rewrite sapp_nil_r in L. exact L.
  - specialize (IH ltac:(discriminate)). change (join (map (fun v => lit_to_string v t) (v :: w :: vs))) with (lit_to_string v t ++ ", " ++ join (map (fun v => lit_to_string v t) (w :: vs)))%string.
    change (list_tokens t (v :: w :: vs)) with ([TLit v t] ++ punct "," :: list_tokens t (w :: vs)). rewrite <- app_assoc. cbn [app]. rewrite (lex_lit v t T C _ (punct "," :: list_tokens t (w :: vs) ++ [TEol])); [reflexivity|reflexivity|].
    cbn [String.append]. rewrite lex_punct; [|reflexivity|cbn; intuition discriminate]. rewrite lex_space, IH. reflexivity.
Qed.
Definition data_dir (d : directive_name) (t : ntype) (vs : list Z) : directive := Directive d None default_flags RC_default (map (lit t) vs).
Lemma list_parse : forall t vs, Forall (fun v => cast_to t v = v) vs -> vs <> [] -> forall f acc, (List.length vs <= f)%nat -> p_list f acc (list_tokens t vs ++ [TEol]) = Ok (acc ++ map (lit t) vs, [TEol]).
Proof.
  intros t vs F. induction F as [|v vs C F IH]; intros N f acc LE; [congruence|]. destruct f as [|f]; [cbn in LE; lia|]. cbn [p_list].
  assert (P : forall x rest, ~ continues x -> parse_expr (TLit v t :: x :: rest) = Ok (ELit v t, x :: rest)) by (intros x rest NC; apply (operand_parse [TLit v t] (ELit v t) x rest); [split; [reflexivity|exact C]|exact NC]).
  destruct vs as [|w vs].
  - cbn [list_tokens app]. rewrite P by (apply ender_stops; left; reflexivity). reflexivity.
  - change (list_tokens t (v :: w :: vs) ++ [TEol]) with (TLit v t :: punct "," :: list_tokens t (w :: vs) ++ [TEol]). rewrite P by (apply punct_stops; cbn; tauto). cbn [bind].
    change (at_end (punct "," :: list_tokens t (w :: vs) ++ [TEol])) with (Ok false). cbn [bind]. change (consume "," (punct "," :: list_tokens t (w :: vs) ++ [TEol])) with (Ok (list_tokens t (w :: vs) ++ [TEol])). cbn [bind].
    rewrite IH; [|discriminate|cbn in *; lia]. rewrite <- app_assoc. reflexivity.
Qed.
Definition data_name (d : directive_name) : Prop := d = D_db \/ d = D_dw \/ d = D_dl.
Lemma row_read : forall d w t vs, data_name d -> str_all is_ident_char w = true -> dotted_token (String "." w) = Ok (TDir d) -> small_type t -> Forall (fun v => cast_to t v = v) vs -> vs <> [] ->
  reads_line (String "." w ++ "  " ++ join (map (fun v => lit_to_string v t) vs))%string [PStmt (SDir (data_dir d t vs))].
Proof.
  intros d w t vs DN A D T F N. exists (TDir d :: list_tokens t vs ++ [TEol]). split.
  - apply lex_dir; [exact A|exact D|reflexivity|]. cbn [String.append]. rewrite !lex_space. apply join_lex; assumption.
  - unfold parse. cbn [List.length]. rewrite parse_loop_eq. change (p_label (TDir d :: list_tokens t vs ++ [TEol])) with (Ok (@nil parsed, TDir d :: list_tokens t vs ++ [TEol], false)). cbn [bind].
    unfold stmt_part. cbn [front bind tok_at_end tok_dir]. change (is_char "{" (TDir d) || is_char "}" (TDir d)) with false.
    assert (PD : parse_directive (TDir d :: list_tokens t vs ++ [TEol]) = Ok (data_dir d t vs, [TEol])).
    { unfold parse_directive. assert (DT : directive_type_by_name d = DT_list_arg) by (destruct DN as [->|[->| ->]]; reflexivity). rewrite DT.
      rewrite (list_parse t vs F N); [reflexivity|]. clear. rewrite app_length. enough (List.length vs <= List.length (list_tokens t vs))%nat by lia. induction vs as [|v [|w vs] IH]; [apply le_n|apply le_n|]. cbn [list_tokens List.length] in *. lia. }
    cbn [is_eol]. rewrite PD. reflexivity.
Qed.

(** ** Loading. *)
Definition plain_dir (s : statement) : Prop := match s with SDir d => In (d_name d) [D_org; D_db; D_dw; D_dl] | SInstr _ => False end.
Lemma load_plain : forall file ss, Forall2 (fun l s => reads_line l [PStmt s]) file ss -> Forall plain_dir ss -> forall ls,
  load_lines (Loader (md_with_lines ls empty_module) [] []) file = Ok (Loader (md_with_lines (ls ++ map new_line ss) empty_module) [] []).
Proof.
  intros file ss F P. induction F as [|l s file ss (ts & T & PA) F IH]; intros ls; cbn [load_lines map]; [rewrite app_nil_r; reflexivity|].
  inversion P as [|? ? Ps Pss]; subst. rewrite T. cbn [bind]. rewrite PA. cbn [bind load_entities load_entity ld_mod ld_pending ld_scopes add_pending].
  assert (U : upd_back (ln_with_scopes []) (md_with_lines (md_lines (md_with_lines ls empty_module) ++ [new_line s]) (md_with_lines ls empty_module)) = md_with_lines (ls ++ [new_line s]) empty_module).
  { unfold upd_back. cbn [md_lines md_with_lines empty_module md_name md_deps md_globals md_owned md_addr_names md_targets md_rets]. 
    assert (E : zlen (ls ++ [new_line s]) - 1 = zlen ls) by (unfold zlen; rewrite app_length; cbn; lia). rewrite E. rewrite znth_mid. cbn [md_lines md_with_lines].
    rewrite zset_mid. reflexivity. }
  rewrite U. assert (LD : load_directive (md_with_lines (ls ++ [new_line s]) empty_module) [] s = Ok (Loader (md_with_lines (ls ++ [new_line s]) empty_module) [] [])).
  { destruct s as [i|d]; [destruct Ps|]. cbn in Ps. unfold load_directive. repeat destruct Ps as [Ps|Ps]; try contradiction; rewrite <- Ps; reflexivity. }
  rewrite LD. cbn [bind]. rewrite (IH Pss (ls ++ [new_line s])). rewrite <- app_assoc. reflexivity.
Qed.

(** ** Assembling: an .org line, then data lines of one directive. *)
Definition width (d : directive_name) : nat := match d with D_dl => 3 | D_dw => 2 | _ => 1 end.
Definition row_size (d : directive_name) (vs : list Z) : Z := Z.of_nat (width d) * zlen vs.
Definition rows_size (d : directive_name) (rows : list (list Z)) : Z := row_size d (concat rows).
Lemma rows_size_cons : forall d vs rows, rows_size d (vs :: rows) = row_size d vs + rows_size d rows.
Proof. intros. unfold rows_size, row_size. cbn [concat]. rewrite zlen_app. lia. Qed.
Lemma row_size_nonneg : forall d vs, 0 <= row_size d vs.
Proof. intros. unfold row_size. pose proof (zlen_nonneg _ vs). lia. Qed.
Lemma row_size_pos : forall d vs, vs <> [] -> 0 < row_size d vs.
Proof. intros d [|v vs] N; [congruence|]. unfold row_size. rewrite zlen_cons. pose proof (zlen_nonneg _ vs). destruct d; cbn; lia. Qed.
Definition row_stmt (d : directive_name) (t : ntype) (vs : list Z) : statement := SDir (data_dir d t vs).
Lemma row_stmt_size : forall d t vs, data_name d -> stmt_size (row_stmt d t vs) = row_size d vs.
Proof.
  intros d t vs D. cbn [stmt_size row_stmt]. unfold directive_size, row_size, zlen. cbn [data_dir d_name d_list]. rewrite map_length.
  destruct D as [->|[->| ->]]; reflexivity.
Qed.
Definition row_bytes (d : directive_name) (vs : list Z) : list Z := flat_map (le_bytes (width d)) vs.
Lemma row_stmt_bytes : forall d t vs a c, data_name d -> stmt_bytes a c (row_stmt d t vs) = Ok (Some (row_bytes d vs)).
Proof.
  intros d t vs a c D. cbn [stmt_bytes row_stmt]. unfold directive_bytes. cbn [data_dir d_name d_list].
  assert (E : encode_list d c (map (lit t) vs) = Ok (row_bytes d vs)).
  { unfold row_bytes. induction vs as [|v vs IH]; [reflexivity|]. cbn [map encode_list lit eval bind flat_map]. rewrite IH. cbn [bind]. rewrite encode_value_le. reflexivity. }
  rewrite E. destruct D as [->|[->| ->]]; reflexivity.
Qed.
Lemma row_bytes_len : forall d vs, zlen (row_bytes d vs) = row_size d vs.
Proof.
  intros. unfold row_bytes, row_size. induction vs as [|v vs IH]; [cbn; unfold zlen; cbn; lia|]. cbn [flat_map]. rewrite zlen_app, zlen_cons, IH. unfold zlen at 1. rewrite le_bytes_length. lia.
Qed.
Fixpoint row_lines (d : directive_name) (t : ntype) (a : Z) (rows : list (list Z)) : list line :=
  match rows with
  | [] => []
  | vs :: rows' => ln_with_value (label_of_address a) (new_line (row_stmt d t vs)) :: row_lines d t (add_wrapped a (row_size d vs)) rows'
  end.
Fixpoint row_writes (d : directive_name) (a : Z) (rows : list (list Z)) : list write :=
  match rows with
  | [] => []
  | vs :: rows' => (a, row_bytes d vs) :: row_writes d (add_wrapped a (row_size d vs)) rows'
  end.
Lemma rows_layout : forall d t rows a, data_name d -> addr24 a -> layout (Some a) (map new_line (map (row_stmt d t) rows)) = Ok (row_lines d t a rows).
Proof.
  intros d t rows. induction rows as [|vs rows IH]; intros a D A; [reflexivity|]. cbn [map layout row_lines new_line ln_stmt]. rewrite row_stmt_size by exact D.
  assert (O : match d_name (data_dir d t vs) with D_org => let* v := eval_opt null_ctx (d_arg (data_dir d t vs)) in let* a0 := mk_address v in Ok (Some a0) | _ => Ok (Some a) end = Ok (Some a)) by (destruct D as [->|[->| ->]]; reflexivity).
  change (match row_stmt d t vs with SDir d0 => match d_name d0 with D_org => let* v := eval_opt null_ctx (d_arg d0) in let* a0 := mk_address v in Ok (Some a0) | _ => Ok (Some a) end | SInstr _ => Ok (Some a) end)
    with (match d_name (data_dir d t vs) with D_org => let* v := eval_opt null_ctx (d_arg (data_dir d t vs)) in let* a0 := mk_address v in Ok (Some a0) | _ => Ok (Some a) end). rewrite O. cbn [bind].
  rewrite IH by (try exact D; apply add_wrapped_24; unfold addr24 in A; lia). cbn [bind].
  replace (stmt_is_dir D_equ (row_stmt d t vs)) with false by (destruct D as [->|[->| ->]]; reflexivity). reflexivity.
Qed.
Lemma claimed_at : forall a o n x, addr24 a -> claimed (add_wrapped a o) n x -> exists k, o <= k < o + n /\ x = same_bank_plus a k.
Proof.
  intros a o n x A (k & K & ->). exists (o + k). split; [lia|]. rewrite <- add_wrapped_spec by (apply add_wrapped_24; unfold addr24 in A; lia).
  rewrite add_wrapped_add, add_wrapped_spec by exact A. reflexivity.
Qed.
Lemma plus_inj : forall a j k, 0 <= j < 65536 -> 0 <= k < 65536 -> same_bank_plus a j = same_bank_plus a k -> j = k.
Proof. intros a j k J K E. unfold same_bank_plus, offset_of in E. change (2 ^ 16) with 65536 in E. lia. Qed.
Definition before (a o : Z) (h : list (Z * Z * bool)) : Prop := forall l n ok, In (l, n, ok) h -> exists off, l = add_wrapped a off /\ 0 <= off /\ off + n <= o.
Definition accepts_in_turn (sk : sink) (ws : list write) (todo : list write) : Prop := forall ws1 w ws2, todo = ws1 ++ w :: ws2 -> sk (ws ++ ws1) w = Ok tt.
Lemma rows_assemble : forall sk ext d t a, data_name d -> addr24 a -> forall rows o ws m h, Forall (fun vs => vs <> []) rows -> 0 <= o -> o + rows_size d rows <= 65536 ->
  claims h (md_owned m) -> before a o h -> accepts_in_turn sk ws (row_writes d (add_wrapped a o) rows) ->
  exists r' h', assemble_lines sk ext (row_lines d t (add_wrapped a o) rows) ws m = (ws ++ row_writes d (add_wrapped a o) rows, Ok (md_with_owned r' m)) /\ claims h' r'.
Proof.
  intros sk ext d t a D A rows. induction rows as [|vs rows IH]; intros o ws m h NE O S CL BF AC.
  - exists (md_owned m), h. cbn [row_lines row_writes assemble_lines]. rewrite app_nil_r. split; [|exact CL]. destruct m. reflexivity.
  - inversion NE as [|? ? N NE']; subst. rewrite rows_size_cons in S. pose proof (row_size_pos d vs N) as P. pose proof (row_size_nonneg d (concat rows)) as P'. fold (rows_size d rows) in P'.
    assert (A' : addr24 (add_wrapped a o)) by (apply add_wrapped_24; unfold addr24 in A; lia).
    cbn [row_lines row_writes assemble_lines ln_stmt ln_with_value new_line]. unfold assemble_stmt. cbn [ln_stmt ln_with_value new_line ln_value ln_scopes].
    rewrite row_stmt_size by exact D. destruct (Z.ltb_spec 0 (row_size d vs)); [|lia].
    rewrite label_address by (unfold addr24 in A'; lia). cbn [wbind]. unfold stmt_assemble. rewrite row_stmt_bytes by exact D. unfold sink_write.
    pose proof (AC [] (add_wrapped a o, row_bytes d vs) (row_writes d (add_wrapped (add_wrapped a o) (row_size d vs)) rows) eq_refl) as W. rewrite app_nil_r in W. rewrite W. cbn [wbind].
    destruct (claims_history h (md_owned m) CL) as (_ & _ & CB). destruct (CB (add_wrapped a o) (row_size d vs) A') as (ok & r1 & E & OK).
    assert (T : ok = true).
    { apply OK. change (2 ^ 16) with 65536. split; [lia|]. intros x l n o' C I C'. apply BF in I as (off & -> & I1 & I2).
      apply claimed_at in C as (k & K & ->); [|exact A]. apply claimed_at in C' as (k' & K' & EQ); [|exact A]. apply plus_inj in EQ; lia. }
    rewrite E, T. cbn [wbind row_stmt]. 
    assert (CL' : claims ((add_wrapped a o, row_size d vs, true) :: h) (md_owned (md_with_owned r1 m))) by (cbn [md_owned md_with_owned]; rewrite T in E; eapply cl_next; eassumption).
    rewrite !add_wrapped_add by exact A.
    destruct (IH (o + row_size d vs) (ws ++ [(add_wrapped a o, row_bytes d vs)]) (md_with_owned r1 m) _ NE' ltac:(lia) ltac:(lia) CL') as (r' & h' & AL & C').
    + intros l n ok' [I|I]; [injection I as <- <- _; exists o; repeat split; lia|]. destruct (BF _ _ _ I) as (off & -> & ? & ?). exists off. repeat split; lia.
    + intros ws1 w ws2 Q. rewrite <- app_assoc. cbn [app]. apply (AC ((add_wrapped a o, row_bytes d vs) :: ws1) w ws2). cbn [row_writes app]. rewrite add_wrapped_add by exact A. rewrite Q. reflexivity.
    + exists r', h'. split; [|exact C']. etransitivity; [exact AL|]. rewrite <- app_assoc. reflexivity.
Qed.

Lemma no_entries : forall ss, Forall plain_dir ss -> forall i, entry_states i (map new_line ss) [] = [].
Proof.
  intros ss F. induction F as [|s ss P F IH]; intros i; [reflexivity|]. cbn [map entry_states new_line ln_stmt]. destruct s as [j|d]; [destruct P|]. cbn in P.
  repeat destruct P as [P|P]; try contradiction; rewrite <- P; apply IH.
Qed.
Lemma no_modes : forall ss, Forall plain_dir ss -> fix_modes (map new_line ss) = Ok (map new_line ss).
Proof.
  intros ss F. induction F as [|s ss P F IH]; [reflexivity|]. cbn [map fix_modes new_line ln_stmt]. destruct s as [j|d]; [destruct P|]. cbn [bind]. rewrite IH. reflexivity.
Qed.
Lemma no_deps : forall ss m, Forall plain_dir ss -> md_lines m = map new_line ss -> compute_deps m = [].
Proof.
  intros ss m F E. unfold compute_deps. rewrite E. clear E. generalize m. clear m. induction F as [|s ss P F IH]; intros m; [reflexivity|]. cbn [map flat_map new_line ln_stmt].
  destruct s as [j|d]; [destruct P|]. cbn in P. rewrite IH, app_nil_r. repeat destruct P as [P|P]; try contradiction; rewrite <- P; reflexivity.
Qed.
Lemma no_equ : forall n k ext m, Forall plain_dir (map ln_stmt (md_lines m)) -> second_pass_loop n k ext m = Ok m.
Proof.
  induction n as [|n IH]; intros k ext m F; [reflexivity|]. cbn [second_pass_loop]. destruct (znth (md_lines m) k) as [l|] eqn:E; [|reflexivity].
  assert (P : plain_dir (ln_stmt l)) by (rewrite Forall_forall in F; apply F; apply in_map; eapply znth_in; exact E).
  destruct (ln_stmt l) as [j|d]; [destruct P|]. cbn in P. repeat destruct P as [P|P]; try contradiction; rewrite <- P; cbn [bind]; apply IH; exact F.
Qed.
Lemma row_lines_stmt : forall d t rows a, map ln_stmt (row_lines d t a rows) = map (row_stmt d t) rows.
Proof. intros d t rows. induction rows as [|vs rows IH]; intros a; [reflexivity|]. cbn [row_lines map]. rewrite IH. reflexivity. Qed.
Lemma rows_plain : forall d t rows, data_name d -> Forall plain_dir (map (row_stmt d t) rows).
Proof. intros d t rows D. rewrite Forall_map. apply Forall_forall. intros vs _. cbn. destruct D as [->|[->| ->]]; tauto. Qed.
Definition org_ln (a : Z) : line := ln_with_value (label_of_address a) (new_line (org_stmt a)).
Definition data_module (d : directive_name) (t : ntype) (a : Z) (rows : list (list Z)) : module := md_with_lines (org_ln a :: row_lines d t a rows) empty_module.
Lemma wrapped_0 : forall a, addr24 a -> add_wrapped a 0 = a.
Proof. intros a A. rewrite add_wrapped_spec by exact A. unfold addr24 in A. unfold same_bank_plus, bank_of, offset_of. change (2 ^ 16) with 65536. lia. Qed.
Lemma data_passes : forall fuel sk d t a rows file, data_name d -> addr24 a ->
  Forall2 (fun l s => reads_line l [PStmt s]) file (org_stmt a :: map (row_stmt d t) rows) ->
  assemble fuel sk [file] = wbind (assemble_modules sk [0] [] [] [data_module d t a rows] (RangeMap [] [])) (fun ws '(ms, rm) => (ws, Ok (Assembler ms rm []))).
Proof.
  intros fuel sk d t a rows file D A RD. set (ss := org_stmt a :: map (row_stmt d t) rows) in *.
  assert (PL : Forall plain_dir ss) by (constructor; [left; reflexivity|apply rows_plain; exact D]).
  set (m0 := md_with_lines (map new_line ss) empty_module).
  assert (LD : load_asm_file file = Ok m0).
  { unfold load_asm_file. pose proof (load_plain file ss RD PL []) as L. cbn [app] in L. change (md_with_lines [] empty_module) with empty_module in L. rewrite L. cbn [bind ld_scopes ld_mod].
    rewrite (no_deps ss) by (try exact PL; reflexivity). reflexivity. }
  set (m1 := data_module d t a rows).
  assert (A2 : 0 <= a <= 2 ^ 24) by (unfold addr24 in A; lia).
  assert (MK : mk_address a = Ok a) by (apply mk_address_ok; [change (2 ^ 24) with 16777216 in A2; lia|auto]).
  assert (LO : layout None (map new_line ss) = Ok (org_ln a :: row_lines d t a rows)).
  { unfold ss. cbn [map layout new_line ln_stmt org_stmt d_name d_arg eval_opt eval bind]. rewrite MK. cbn [bind stmt_size]. change (stmt_size (org_stmt a)) with 0. rewrite wrapped_0 by exact A.
    rewrite rows_layout by assumption. reflexivity. }
  assert (FP : run_first_pass fuel m0 = Ok m1).
  { unfold run_first_pass. change (md_lines m0) with (map new_line ss). rewrite no_entries by exact PL. replace (first_pass_loop fuel m0 (map new_line ss) []) with (Ok (map new_line ss)) by (destruct fuel; reflexivity).
    cbn [bind]. rewrite no_modes by exact PL. cbn [bind]. rewrite LO. reflexivity. }
  assert (SP : forall ext, run_second_pass ext m1 = Ok m1).
  { intros ext. apply no_equ. change (md_lines m1) with (org_ln a :: row_lines d t a rows). cbn [map]. rewrite row_lines_stmt. exact PL. }
  unfold assemble. cbn [add_files]. unfold add_asm_file. rewrite LD. cbn [bind wbind]. unfold assembler_assemble. cbn [as_mods app empty_assembler as_map as_names].
  assert (FO : find_assembly_order [m0] = Ok ([0], [])) by reflexivity. rewrite FO. cbn [wbind].
  assert (P1 : first_passes fuel [0] [m0] = Ok [m1]) by (cbn [first_passes]; change (znth [m0] 0) with (Some m0); cbn iota; rewrite FP; reflexivity). rewrite P1. cbn [wbind].
  assert (P2 : second_passes [0] [] [m1] = Ok [m1]) by (cbn [second_passes]; change (znth [m1] 0) with (Some m1); cbn iota; rewrite SP; reflexivity). rewrite P2. cbn [wbind]. reflexivity.
Qed.
Lemma data_lines : forall sk ext d t a rows, assemble_lines sk ext (md_lines (data_module d t a rows)) [] (data_module d t a rows) = assemble_lines sk ext (row_lines d t a rows) [] (data_module d t a rows).
Proof.
  intros. set (m1 := data_module d t a rows). change (md_lines m1) with (org_ln a :: row_lines d t a rows). cbn [assemble_lines].
  assert (Q : assemble_stmt sk ext (org_ln a) [] m1 = ([], Ok m1)) by reflexivity. rewrite Q. reflexivity.
Qed.
Lemma data_file : forall fuel sk d t a rows file, data_name d -> addr24 a -> Forall (fun vs => vs <> []) rows -> rows_size d rows <= 65536 ->
  Forall2 (fun l s => reads_line l [PStmt s]) file (org_stmt a :: map (row_stmt d t) rows) -> accepts_in_turn sk [] (row_writes d a rows) ->
  exists asm, assemble fuel sk [file] = (row_writes d a rows, Ok asm) /\ jump_targets asm = [].
Proof.
  intros fuel sk d t a rows file D A NE S RD AC. rewrite (data_passes fuel sk d t a rows file D A RD). set (m1 := data_module d t a rows).
  destruct (rows_assemble sk (assembler_ctx [m1] []) d t a D A rows 0 [] m1 [] NE ltac:(lia) ltac:(lia) cl_none) as (r' & h' & AL & CL); [intros ? ? ? []|rewrite wrapped_0 by exact A; exact AC|]. rewrite wrapped_0 in AL by exact A. cbn [app] in AL.
  set (m2 := md_with_owned r' m1) in *.
  assert (MA : module_assemble sk (assembler_ctx [m1] []) [] m1 = (row_writes d a rows, Ok m2)).
  { unfold module_assemble. unfold m1 at 2 3. rewrite data_lines. fold m1. rewrite AL. reflexivity. }
  destruct (claims_history _ _ CL) as (CA & _ & _).
  destruct (rm_insert (RangeMap [] []) r' 0) as [ok rm'] eqn:RI. assert (OK : ok = true).
  { pose proof (rangemap_insert Z (RangeMap [] []) [] r' 0 in_none CA) as ((_ & R) & _). rewrite RI in R. apply R. intros ? ? ? []. }
  exists (Assembler [m2] rm' []). split; [|reflexivity].
  cbn [assemble_modules]. change (znth [m1] 0) with (Some m1). cbn iota. rewrite MA. cbn [wbind]. change (md_owned m2) with r'. rewrite RI, OK. change (zset 0 m2 [m1]) with [m2]. reflexivity.
Qed.

(** ** The values of the image. *)
Definition shows_rom (r : rom) (a : Z) (data : list Z) : Prop := forall k b, nth_byte data k = Some b -> in_rom r (same_bank_plus a k) b.
Lemma plus_0 : forall a, addr24 a -> same_bank_plus a 0 = a.
Proof. intros a A. unfold addr24 in A. unfold same_bank_plus, bank_of, offset_of. change (2 ^ 16) with 65536. lia. Qed.
Lemma plus_plus : forall a j k, addr24 a -> same_bank_plus (same_bank_plus a j) k = same_bank_plus a (j + k).
Proof. intros a j k A. pose proof (add_wrapped_add a j k A) as E. rewrite (add_wrapped_spec (add_wrapped a j)) in E by (apply add_wrapped_24; unfold addr24 in A; lia). rewrite !add_wrapped_spec in E by exact A. exact E. Qed.
Lemma shows_nil : forall r a, shows_rom r a [].
Proof. intros r a k b H. apply nth_byte_some in H. cbn in H. lia. Qed.
Lemma shows_cons : forall r a b l, addr24 a -> shows_rom r a (b :: l) <-> in_rom r a b /\ shows_rom r (same_bank_plus a 1) l.
Proof.
  intros r a b l A. split.
  - intros H. split; [specialize (H 0 b (nth_byte_0 _ _)); rewrite plus_0 in H by exact A; exact H|]. intros k c K. pose proof (nth_byte_some _ _ _ K). rewrite plus_plus by exact A. rewrite Z.add_comm. apply H. rewrite nth_byte_S by lia. exact K.
  - intros (H & T) k c K. apply nth_byte_cons in K as [[-> ->]|[P K]]; [rewrite plus_0 by exact A; exact H|]. specialize (T _ _ K). rewrite plus_plus in T by exact A. replace (1 + (k - 1)) with k in T by lia. exact T.
Qed.
Lemma plus_24 : forall a k, addr24 a -> addr24 (same_bank_plus a k).
Proof. intros a k A. rewrite <- add_wrapped_spec by exact A. apply add_wrapped_24. unfold addr24 in A. lia. Qed.
Lemma shows_app : forall r l1 l2 a, addr24 a -> shows_rom r a (l1 ++ l2) <-> shows_rom r a l1 /\ shows_rom r (same_bank_plus a (zlen l1)) l2.
Proof.
  induction l1 as [|b l1 IH]; intros l2 a A.
  - cbn [app]. change (zlen (@nil Z)) with 0. rewrite plus_0 by exact A. split; [intros H; split; [apply shows_nil|exact H]|intros [_ H]; exact H].
  - cbn [app]. rewrite !shows_cons by exact A. rewrite IH by (apply plus_24; exact A). rewrite plus_plus by exact A. rewrite zlen_cons. tauto.
Qed.
Definition stride_dir (s : Z) : directive_name := if s =? 2 then D_dw else if s =? 3 then D_dl else D_db.
Definition stride_type (s : Z) : ntype := if s =? 2 then T_word else if s =? 3 then T_long else T_byte.
Lemma stride_cases : forall (P : Z -> Prop), P 2 -> P 3 -> (forall s, value_width s = 1 -> s <> 2 -> s <> 3 -> P s) -> forall s, P s.
Proof. intros P H2 H3 H s. unfold value_width in H. destruct (Z.eqb_spec s 2) as [->|N2]; [exact H2|]. destruct (Z.eqb_spec s 3) as [->|N3]; [exact H3|]. apply H; [|exact N2|exact N3]. apply Z.eqb_neq in N2, N3. rewrite N2, N3. reflexivity. Qed.
Lemma in_rom_byte : forall r a b, bytes_ok (rom_data r) -> in_rom r a b -> 0 <= b < 256.
Proof.
  intros r a b B (off & _ & N). unfold bytes_ok in B. rewrite Forall_forall in B. apply B. rewrite <- znth_nth_byte in N. eapply znth_in. exact N.
Qed.
Definition range_of (t : ntype) : Z := match t with T_word => 2 ^ 16 | T_long => 2 ^ 24 | _ => 2 ^ 8 end.
Lemma cast_small : forall t v, small_type t -> 0 <= v < range_of t -> cast_to t v = v.
Proof.
  intros t v [->|[->| ->]] R; cbn [range_of cast_to] in *.
  - change 0xff with (Z.ones 8). rewrite Z.land_ones by lia. apply Z.mod_small. exact R.
  - change 0xffff with (Z.ones 16). rewrite Z.land_ones by lia. apply Z.mod_small. exact R.
  - change 0xffffff with (Z.ones 24). rewrite Z.land_ones by lia. apply Z.mod_small. exact R.
Qed.
Lemma stride_small : forall s, small_type (stride_type s).
Proof. intros s. unfold stride_type, small_type. destruct (s =? 2); [tauto|]. destruct (s =? 3); tauto. Qed.
Lemma stride_data : forall s, data_name (stride_dir s).
Proof. intros s. unfold stride_dir, data_name. destruct (s =? 2); [tauto|]. destruct (s =? 3); tauto. Qed.
Lemma value_read : forall r s a x, addr24 a -> bytes_ok (rom_data r) -> dump_value (rom_read r) s a = Ok x ->
  exists v, x = lit_to_string v (stride_type s) /\ cast_to (stride_type s) v = v /\ shows_rom r a (le_bytes (width (stride_dir s)) v).
Proof.
  intros r s a x A B H. destruct (read_values r a A) as (R1 & R2 & R3). revert H. pattern s. apply stride_cases; clear s.
  - cbn [dump_value Z.eqb Pos.eqb]. intros H. bok H as v E. injection H as <-. apply R2 in E as (b0 & b1 & I0 & I1 & ->). pose proof (in_rom_byte _ _ _ B I0). pose proof (in_rom_byte _ _ _ B I1).
    exists (b0 + 2 ^ 8 * b1). change (stride_type 2) with T_word. assert (C : cast_to T_word (b0 + 2 ^ 8 * b1) = b0 + 2 ^ 8 * b1) by (apply cast_small; [right; left; reflexivity|cbn [range_of]; lia]).
    split; [unfold lit_to_string; rewrite C; reflexivity|]. split; [exact C|]. change (width (stride_dir 2)) with 2%nat. cbn [le_bytes]. change (2 ^ 8) with 256.
    replace ((b0 + 256 * b1) mod 256) with b0 by lia. replace ((b0 + 256 * b1) / 256 mod 256) with b1 by lia. apply shows_cons; [exact A|]. split; [exact I0|]. apply shows_cons; [apply plus_24; exact A|]. split; [exact I1|apply shows_nil].
  - cbn [dump_value Z.eqb Pos.eqb]. intros H. bok H as v E. injection H as <-. apply R3 in E as (b0 & b1 & b2 & I0 & I1 & I2 & ->). pose proof (in_rom_byte _ _ _ B I0). pose proof (in_rom_byte _ _ _ B I1). pose proof (in_rom_byte _ _ _ B I2).
    set (v := b0 + 2 ^ 8 * b1 + 2 ^ 16 * b2). exists v. change (stride_type 3) with T_long. assert (C : cast_to T_long v = v) by (apply cast_small; [right; right; reflexivity|cbn [range_of]; unfold v; lia]).
    split; [unfold lit_to_string; rewrite C; reflexivity|]. split; [exact C|]. change (width (stride_dir 3)) with 3%nat. cbn [le_bytes]. unfold v. change (2 ^ 8) with 256. change (2 ^ 16) with 65536.
    replace ((b0 + 256 * b1 + 65536 * b2) mod 256) with b0 by lia. replace ((b0 + 256 * b1 + 65536 * b2) / 256 mod 256) with b1 by lia. replace ((b0 + 256 * b1 + 65536 * b2) / 256 / 256 mod 256) with b2 by lia.
    apply shows_cons; [exact A|]. split; [exact I0|]. apply shows_cons; [apply plus_24; exact A|]. split; [exact I1|]. rewrite plus_plus by exact A. apply shows_cons; [apply plus_24; exact A|]. split; [exact I2|apply shows_nil].
  - intros s _ N2 N3. apply Z.eqb_neq in N2, N3. unfold dump_value, stride_type, stride_dir. rewrite N2, N3. intros H. bok H as v E. injection H as <-. apply R1 in E. pose proof (in_rom_byte _ _ _ B E).
    exists v. assert (C : cast_to T_byte v = v) by (apply cast_small; [left; reflexivity|cbn [range_of]; lia]). split; [unfold lit_to_string; rewrite C; reflexivity|]. split; [exact C|]. cbn [width le_bytes]. rewrite Z.mod_small by lia.
    apply shows_cons; [exact A|]. split; [exact E|apply shows_nil].
Qed.
Lemma value_width_dir : forall s, Z.of_nat (width (stride_dir s)) = value_width s.
Proof. intros s. unfold stride_dir, value_width. destruct (s =? 2); [reflexivity|]. destruct (s =? 3); reflexivity. Qed.
Lemma value_total : forall r s a, addr24 a ->
  (exists x, dump_value (rom_read r) s a = Ok x) /\ (forall k, 0 <= k < value_width s -> exists b, in_rom r (same_bank_plus a k) b) \/
  (exists e, dump_value (rom_read r) s a = Err e) /\ ~ (forall k, 0 <= k < value_width s -> exists b, in_rom r (same_bank_plus a k) b).
Proof.
  intros r s a A. assert (W : 0 <= value_width s <= 2 ^ 16) by (unfold value_width; destruct (s =? 2); [|destruct (s =? 3)]; lia).
  destruct (rom_read_exact r a (value_width s) A W) as (EX & [[l E]|[e E]]).
  - left. split; [|apply (proj1 (rom_read_succeeds r a _ A W)); exists l; exact E]. apply EX in E as E'. destruct E' as (L & _). revert E L. clear EX W. pattern s. apply stride_cases; clear s.
    + change (value_width 2) with 2. intros E L. destruct l as [|b0 [|b1 [|? ?]]]; cbn [List.length] in L; try lia. cbn [dump_value Z.eqb Pos.eqb]. unfold read_word. rewrite E. cbn. eexists; reflexivity.
    + change (value_width 3) with 3. intros E L. destruct l as [|b0 [|b1 [|b2 [|? ?]]]]; cbn [List.length] in L; try lia. cbn [dump_value Z.eqb Pos.eqb]. unfold read_long. rewrite E. cbn. eexists; reflexivity.
    + intros s -> N2 N3 E L. apply Z.eqb_neq in N2, N3. destruct l as [|b0 [|? ?]]; cbn [List.length] in L; try lia. unfold dump_value. rewrite N2, N3. unfold read_byte. rewrite E. cbn. eexists; reflexivity.
  - right. split.
    + exists e. clear EX W. revert E. pattern s. apply stride_cases; clear s.
      * change (value_width 2) with 2. intros E. cbn [dump_value Z.eqb Pos.eqb]. unfold read_word. rewrite E. reflexivity.
      * change (value_width 3) with 3. intros E. cbn [dump_value Z.eqb Pos.eqb]. unfold read_long. rewrite E. reflexivity.
      * intros s -> N2 N3 E. apply Z.eqb_neq in N2, N3. unfold dump_value. rewrite N2, N3. unfold read_byte. rewrite E. reflexivity.
    + intros C. apply (proj2 (rom_read_succeeds r a _ A W)) in C as [l C]. congruence.
Qed.
Lemma values_read : forall r s, bytes_ok (rom_data r) -> value_width s = s -> forall n a xs, addr24 a -> dump_values n (rom_read r) s a = Ok xs ->
  exists vs, List.length vs = n /\ xs = map (fun v => lit_to_string v (stride_type s)) vs /\ Forall (fun v => cast_to (stride_type s) v = v) vs /\ shows_rom r a (row_bytes (stride_dir s) vs).
Proof.
  intros r s B W n. induction n as [|n IH]; intros a xs A H; cbn [dump_values] in H.
  - injection H as <-. exists []. repeat split; [constructor|apply shows_nil].
  - destruct (dump_value (rom_read r) s a) as [x| | |] eqn:E; try discriminate H. bok H as l L. injection H as <-. apply value_read in E as (v & -> & C & S); [|exact A|exact B].
    apply IH in L as (vs & <- & -> & F & S'); [|apply add_wrapped_24; unfold addr24 in A; lia]. exists (v :: vs). repeat split; [constructor; assumption|]. unfold row_bytes. cbn [flat_map]. apply shows_app; [exact A|]. split; [exact S|].
    unfold zlen. rewrite le_bytes_length, value_width_dir, W. rewrite add_wrapped_spec in S' by exact A. exact S'.
Qed.
Lemma values_total : forall r s, value_width s = s -> forall n a, addr24 a ->
  (exists xs, dump_values n (rom_read r) s a = Ok xs) /\ (forall k, 0 <= k < s * Z.of_nat n -> exists b, in_rom r (same_bank_plus a k) b) \/
  dump_values n (rom_read r) s a = UB UB_assert /\ ~ (forall k, 0 <= k < s * Z.of_nat n -> exists b, in_rom r (same_bank_plus a k) b).
Proof.
  intros r s W n. assert (P : 0 < s) by (rewrite <- W; unfold value_width; destruct (s =? 2); [|destruct (s =? 3)]; lia).
  induction n as [|n IH]; intros a A; cbn [dump_values].
  - left. split; [eexists; reflexivity|]. intros k K. lia.
  - destruct (value_total r s a A) as [[[x E] V]|[[e E] V]]; rewrite E.
    + rewrite W in V. rewrite add_wrapped_spec by exact A. destruct (IH (same_bank_plus a s) (plus_24 _ _ A)) as [[[xs L] V']|[L V']]; rewrite L.
      * left. split; [eexists; reflexivity|]. intros k K. destruct (Z.ltb_spec k s); [apply V; lia|]. destruct (V' (k - s) ltac:(lia)) as [b I]. exists b. rewrite plus_plus in I by exact A. replace (s + (k - s)) with k in I by lia. exact I.
      * right. split; [reflexivity|]. intros K. apply V'. intros k R. rewrite plus_plus by exact A. apply K. lia.
    + right. split; [reflexivity|]. intros K. apply V. rewrite W. intros k R. apply K. lia.
Qed.

(** ** The lines. *)
Fixpoint chunks (fuel per : nat) (vs : list Z) : list (list Z) :=
  match fuel with
  | O => []
  | S f => if (per <? List.length vs)%nat then firstn per vs :: chunks f per (skipn per vs) else match vs with [] => [] | _ => [vs] end
  end.
Lemma chunks_lines : forall f dir per fuel vs, dump_lines fuel dir per (map f vs) = map (fun row => dir ++ " " ++ join (map f row))%string (chunks fuel per vs).
Proof.
  intros f dir per fuel. induction fuel as [|fuel IH]; intros vs; [reflexivity|]. cbn [dump_lines chunks]. rewrite map_length. destruct (per <? List.length vs)%nat.
  - cbn [map]. rewrite firstn_map, skipn_map, IH. reflexivity.
  - destruct vs; reflexivity.
Qed.
Lemma chunks_all : forall per, (0 < per)%nat -> forall fuel vs, (List.length vs <= fuel)%nat -> concat (chunks fuel per vs) = vs /\ Forall (fun row => row <> []) (chunks fuel per vs).
Proof.
  intros per P fuel. induction fuel as [|fuel IH]; intros vs L.
  - destruct vs; [|cbn in L; lia]. split; [reflexivity|constructor].
  - cbn [chunks]. destruct (Nat.ltb_spec per (List.length vs)).
    + destruct (IH (skipn per vs)) as [C F]; [rewrite skipn_length; lia|]. cbn [concat]. rewrite C, firstn_skipn. split; [reflexivity|]. constructor; [|exact F]. destruct vs; [cbn in *; lia|]. destruct per; [lia|discriminate].
    + destruct vs; [split; [reflexivity|constructor]|]. cbn [concat]. rewrite app_nil_r. split; [reflexivity|]. constructor; [discriminate|constructor].
Qed.
Lemma org_head : forall a, addr24 a -> reads_line (".org $" ++ hex_fixed 6 a)%string [PStmt (org_stmt a)].
Proof.
  intros a A. destruct (org_read a A) as (ts & T & P). exists ts. split; [|exact P]. rewrite <- T. unfold org_line.
  change ("         .org " ++ address_to_string a)%string with (spaces 9 ++ (".org $" ++ hex_fixed 6 a))%string.
  rewrite (leading_space (spaces 9)) by apply spaces_space. reflexivity.
Qed.

(** ** The dump. *)
Lemma writes_row : forall d rows a, addr24 a -> in_a_row a (row_writes d a rows) /\ concat (map snd (row_writes d a rows)) = row_bytes d (concat rows).
Proof.
  intros d rows. induction rows as [|vs rows IH]; intros a A; [split; [exact Logic.I|reflexivity]|]. cbn [row_writes in_a_row map snd concat].
  destruct (IH (add_wrapped a (row_size d vs))) as [R C]; [apply add_wrapped_24; unfold addr24 in A; lia|]. rewrite add_wrapped_spec in * by exact A. split; [split; [reflexivity|]|].
  - fold (zlen (row_bytes d vs)). rewrite row_bytes_len. exact R.
  - rewrite C. unfold row_bytes. rewrite flat_map_app. reflexivity.
Qed.
Lemma rows_identity : forall r d rows a, addr24 a -> rows_size d rows <= 65536 -> shows_rom r a (row_bytes d (concat rows)) -> forall ws, accepts_in_turn (identity_sink r) ws (row_writes d a rows).
Proof.
  intros r d rows. induction rows as [|vs rows IH]; intros a A S SH ws ws1 w ws2 E; [destruct ws1; discriminate E|]. cbn [row_writes] in E.
  rewrite rows_size_cons in S. pose proof (row_size_nonneg d (concat rows)) as P. fold (rows_size d rows) in P. pose proof (row_size_nonneg d vs).
  cbn [concat] in SH. unfold row_bytes in SH. rewrite flat_map_app in SH. fold (row_bytes d vs) (row_bytes d (concat rows)) in SH. apply shows_app in SH as [S1 S2]; [|exact A]. rewrite row_bytes_len in S2.
  destruct ws1 as [|w1 ws1]; cbn [app] in E; injection E as E1 E2.
  - subst w. unfold identity_sink. cbn [fst snd]. apply identity_exact; [exact A| |exact S1]. fold (zlen (row_bytes d vs)). rewrite row_bytes_len. change (2 ^ 16) with 65536. lia.
  - rewrite add_wrapped_spec in E2 by exact A. replace (ws ++ w1 :: ws1) with ((ws ++ [w1]) ++ ws1) by (rewrite <- app_assoc; reflexivity). eapply (IH _ (plus_24 _ _ A)); [lia|exact S2|exact E2].
Qed.
Lemma effective_stride : forall s, value_width (if (3 <? s) || (s <? 2) then 1 else s) = (if (3 <? s) || (s <? 2) then 1 else s) /\ (if (3 <? s) || (s <? 2) then 1 else s) = value_width s.
Proof.
  intros s. unfold value_width. destruct (Z.ltb_spec 3 s); cbn [orb]; [|destruct (Z.ltb_spec s 2)]; destruct (Z.eqb_spec s 2); try lia; destruct (Z.eqb_spec s 3); try lia; split; reflexivity.
Qed.
Lemma effective_count : forall c, (if c <? 1 then 1 else c) = value_count c.
Proof. intros c. unfold value_count. destruct (Z.ltb_spec c 1); lia. Qed.
Lemma dump_text : forall r start count stride per lines, addr24 start -> bytes_ok (rom_data r) -> quick_dump (rom_read r) start count stride per = Ok lines ->
  exists d t rows, data_name d /\ Forall (fun vs => vs <> []) rows /\ rows_size d rows = dump_size count stride /\ shows_rom r start (row_bytes d (concat rows)) /\
    Forall2 (fun l s => reads_line l [PStmt s]) lines (org_stmt start :: map (row_stmt d t) rows).
Proof.
  intros r start count stride per lines A B H. unfold quick_dump in H. destruct (effective_stride stride) as [W W2]. rewrite effective_count in H. set (s := if (3 <? stride) || (stride <? 2) then 1 else stride) in *.
  bok H as a M. assert (a = start) as ->. { apply mk_address_ok in M; [tauto|]. unfold addr24 in A. change (2 ^ 24) with 16777216 in A. lia. }
  bok H as xs E. injection H as <-. apply values_read in E as (vs & L & -> & C & S); [|exact B|exact W|exact A]. rewrite map_length.
  set (p := if per <? 1 then 1 else per). destruct (chunks_all (Z.to_nat p) ltac:(unfold p; destruct (Z.ltb_spec per 1); lia) (List.length vs) vs (le_n _)) as [CC NE].
  set (rows := chunks (List.length vs) (Z.to_nat p) vs) in *. exists (stride_dir s), (stride_type s), rows. split; [apply stride_data|]. split; [exact NE|]. split; [|split].
  - unfold rows_size, row_size, dump_size. rewrite CC, value_width_dir, W, <- W2. f_equal. unfold zlen. rewrite L. unfold value_count. lia.
  - rewrite CC. exact S.
  - constructor; [apply org_head; exact A|]. rewrite chunks_lines. fold rows. clearbody s. clear - C CC NE. assert (F : Forall (fun row => Forall (fun v => cast_to (stride_type s) v = v) row) rows).
    { apply Forall_forall. intros row R. apply Forall_forall. intros v V. rewrite Forall_forall in C. apply C. rewrite <- CC. apply in_concat. exists row. split; assumption. }
    clearbody rows. clear C CC vs. induction rows as [|row rows IH]; [constructor|]. inversion NE as [|? ? N NE']; subst. inversion F as [|? ? Fr F']; subst. cbn [map]. constructor; [|apply IH; assumption].
    assert (G : exists w, (if (s =? 2)%Z then ".dw " else if (s =? 3)%Z then ".dl " else ".db ")%string = (String "." w ++ " ")%string /\ str_all is_ident_char w = true /\ dotted_token (String "." w) = Ok (TDir (stride_dir s))).
    { unfold stride_dir. destruct (s =? 2); [exists "dw"%string|destruct (s =? 3); [exists "dl"%string|exists "db"%string]]; repeat split; vm_compute; reflexivity. }
    destruct G as (w & -> & G1 & G2). rewrite sapp_assoc. apply (row_read (stride_dir s) w (stride_type s) row); try assumption; [apply stride_data|apply stride_small].
Qed.
Lemma dump_assembles : forall r start count stride per lines fuel msg, addr24 start -> bytes_ok (rom_data r) -> dump_size count stride <= 2 ^ 16 ->
  quick_dump (rom_read r) start count stride per = Ok lines ->
  exists ws asm, assemble fuel takes_all [lines] = (ws, Ok asm) /\ in_a_row start ws /\
    Z.of_nat (List.length (concat (map snd ws))) = dump_size count stride /\
    (forall k b, nth_byte (concat (map snd ws)) k = Some b -> in_rom r (same_bank_plus start k) b) /\
    quick_assemble fuel msg r true [lines] = Ok ["0 jump targets found"%string].
Proof.
  intros r start count stride per lines fuel msg A B S H. apply dump_text in H as (d & t & rows & D & NE & SZ & SH & RD); [|exact A|exact B]. rewrite <- SZ in *. change (2 ^ 16) with 65536 in S.
  destruct (data_file fuel takes_all d t start rows lines D A NE S RD) as (asm & E & _); [intros ? ? ? _; reflexivity|].
  destruct (data_file fuel (identity_sink r) d t start rows lines D A NE S RD (rows_identity r d rows start A S SH [])) as (asm' & E' & J).
  destruct (writes_row d rows start A) as [R C]. exists (row_writes d start rows), asm. split; [exact E|]. split; [exact R|]. rewrite C. split; [fold (zlen (row_bytes d (concat rows))); apply row_bytes_len|]. split; [exact SH|].
  unfold quick_assemble. rewrite E'. cbn [snd]. unfold target_lines. rewrite J. reflexivity.
Qed.
Lemma dump_total : forall r start count stride per, addr24 start ->
  (exists lines, quick_dump (rom_read r) start count stride per = Ok lines) /\ (forall k, 0 <= k < dump_size count stride -> exists b, in_rom r (same_bank_plus start k) b) \/
  quick_dump (rom_read r) start count stride per = UB UB_assert /\ ~ (forall k, 0 <= k < dump_size count stride -> exists b, in_rom r (same_bank_plus start k) b).
Proof.
  intros r start count stride per A. unfold quick_dump. destruct (effective_stride stride) as [W W2]. rewrite effective_count. unfold dump_size. rewrite <- W2. set (s := if (3 <? stride) || (stride <? 2) then 1 else stride) in *.
  assert (M : mk_address start = Ok start). { apply mk_address_ok; unfold addr24 in A; change (2 ^ 24) with 16777216 in *; lia. } rewrite M. cbn [bind].
  pose proof (values_total r s W (Z.to_nat (value_count count)) start A) as V. rewrite Z2Nat.id in V by (unfold value_count; lia). destruct V as [[[xs E] V]|[E V]]; rewrite E; cbn [bind]; [left|right]; (split; [|exact V]); [eexists; reflexivity|reflexivity].
Qed.

(** ** More than a bank: the data meets itself. *)
Definition reaches (a o : Z) (h : list (Z * Z * bool)) : Prop := forall k, 0 <= k < o -> exists l n ok, In (l, n, ok) h /\ claimed l n (same_bank_plus a k).
Lemma plus_wrap : forall a k, same_bank_plus a (k + 65536) = same_bank_plus a k.
Proof. intros a k. unfold same_bank_plus. change (2 ^ 16) with 65536. replace (offset_of a + (k + 65536)) with (offset_of a + k + 1 * 65536) by lia. rewrite Z.mod_add by lia. reflexivity. Qed.
Lemma rows_overlap : forall ext d t a, data_name d -> addr24 a -> forall rows o ws m h, Forall (fun vs => vs <> []) rows -> 0 <= o <= 65536 -> 65536 < o + rows_size d rows ->
  claims h (md_owned m) -> reaches a o h -> snd (assemble_lines takes_all ext (row_lines d t (add_wrapped a o) rows) ws m) = Err E_overlap.
Proof.
  intros ext d t a D A rows. induction rows as [|vs rows IH]; intros o ws m h NE O S CL RE.
  - unfold rows_size, row_size in S. cbn [concat] in S. change (zlen (@nil Z)) with 0 in S. lia.
  - inversion NE as [|? ? N NE']; subst. rewrite rows_size_cons in S. pose proof (row_size_pos d vs N) as P. pose proof (row_size_nonneg d (concat rows)) as P'. fold (rows_size d rows) in P'.
    assert (A' : addr24 (add_wrapped a o)) by (apply add_wrapped_24; unfold addr24 in A; lia).
    cbn [row_lines assemble_lines ln_stmt ln_with_value new_line]. unfold assemble_stmt. cbn [ln_stmt ln_with_value new_line ln_value ln_scopes].
    rewrite row_stmt_size by exact D. destruct (Z.ltb_spec 0 (row_size d vs)); [|lia].
    rewrite label_address by (unfold addr24 in A'; lia). cbn [wbind]. unfold stmt_assemble. rewrite row_stmt_bytes by exact D. unfold sink_write. cbn [takes_all wbind].
    destruct (claims_history h (md_owned m) CL) as (_ & _ & CB). destruct (CB (add_wrapped a o) (row_size d vs) A') as (ok & r1 & E & OK). rewrite E. cbn [wbind].
    assert (AT : forall k, 0 <= k < row_size d vs -> claimed (add_wrapped a o) (row_size d vs) (same_bank_plus a (o + k))).
    { intros k K. exists k. split; [exact K|]. rewrite add_wrapped_spec by exact A. rewrite plus_plus by exact A. reflexivity. }
    destruct ok; [|reflexivity]. destruct (proj1 OK eq_refl) as [LE DJ]. change (2 ^ 16) with 65536 in LE. cbn [wbind row_stmt]. rewrite !add_wrapped_add by exact A.
    destruct (Z.ltb_spec 65536 (o + row_size d vs)) as [G|G].
    + exfalso. destruct (RE 0 ltac:(lia)) as (l & n & o' & I & C). refine (DJ _ _ _ _ _ I C). specialize (AT (65536 - o) ltac:(lia)). replace (o + (65536 - o)) with (0 + 65536) in AT by lia. rewrite plus_wrap in AT. exact AT.
    + apply (IH (o + row_size d vs) _ _ ((add_wrapped a o, row_size d vs, true) :: h)); [exact NE'|lia|lia| |].
      * cbn [md_owned md_with_owned]. eapply cl_next; eassumption.
      * intros k K. destruct (Z.ltb_spec k o) as [Q|Q]; [destruct (RE k ltac:(lia)) as (l & n & o' & I & C); exists l, n, o'; split; [right; exact I|exact C]|].
        exists (add_wrapped a o), (row_size d vs), true. split; [left; reflexivity|]. specialize (AT (k - o) ltac:(lia)). replace (o + (k - o)) with k in AT by lia. exact AT.
Qed.

Lemma dump_too_long : forall r start count stride per lines fuel, addr24 start -> bytes_ok (rom_data r) -> 2 ^ 16 < dump_size count stride ->
  quick_dump (rom_read r) start count stride per = Ok lines -> snd (assemble fuel takes_all [lines]) = Err E_overlap.
Proof.
  intros r start count stride per lines fuel A B S H. apply dump_text in H as (d & t & rows & D & NE & SZ & SH & RD); [|exact A|exact B]. rewrite <- SZ in *. change (2 ^ 16) with 65536 in S.
  rewrite (data_passes fuel takes_all d t start rows lines D A RD). set (m1 := data_module d t start rows). cbn [assemble_modules]. change (znth [m1] 0) with (Some m1). cbn iota.
  assert (L : snd (assemble_lines takes_all (assembler_ctx [m1] []) (md_lines m1) [] m1) = Err E_overlap).
  { unfold m1 at 2 3. rewrite data_lines. fold m1. rewrite <- (wrapped_0 start A). apply (rows_overlap _ d t start D A rows 0 [] m1 []); [exact NE|lia|lia|exact cl_none|]. intros k K. lia. }
  unfold module_assemble. destruct (assemble_lines takes_all (assembler_ctx [m1] []) (md_lines m1) [] m1) as [ws x]. cbn [snd] in L. subst x. reflexivity.
Qed.
Lemma zeroes_bank : forall k, exists b, in_rom (Rom HiRom (repeat 0 (Z.to_nat 65536))) (same_bank_plus 0xc00000 k) b.
Proof.
  intros k. exists 0. assert (K : 0 <= k mod 65536 < 65536) by lia. exists (k mod 65536). cbn [rom_mapping rom_data]. split.
  - replace (same_bank_plus 0xc00000 k) with (0xc00000 + k mod 65536) by (unfold same_bank_plus, bank_of, offset_of; change (2 ^ 16) with 65536; lia). apply mapping_onto. lia.
  - unfold nth_byte. rewrite repeat_length, Z2Nat.id by lia. destruct (Z.leb_spec 0 (k mod 65536)); [|lia]. destruct (Z.ltb_spec (k mod 65536) 65536); [|lia]. cbn [andb]. f_equal. apply nth_repeat.
Qed.

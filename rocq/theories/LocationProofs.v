(** Forgetting the locations of errors gives back the assembler without them. *)
From Verif Require Import Base BaseProofs ModelNumeric ModelAddress ModelMnemonic ModelExpr ModelAMode
  ModelOpcode ModelState ModelInstr ModelToken ModelStatement ModelParse ModelMap ModelRanges
  ModelModule ModelAssembler ModelLocation SpecLocation.
Open Scope list_scope.
Open Scope Z_scope.
Local Opaque decode_opcode deduce_mode flag_controlling_size tokenize parse execute execute_branch
  fix_addressing_mode stmt_execute stmt_bytes eval_opt.

Lemma e_bare : forall A (r : res A), erase (bare r) = r.
Proof. intros A [a|e|u|]; reflexivity. Qed.
Lemma e_set : forall A l (r : lres A), erase (set_location l r) = erase r.
Proof. intros A l [a|e l0|u|]; reflexivity. Qed.
Lemma e_at : forall A l (r : res A), erase (at_loc l r) = r.
Proof. intros. unfold at_loc. rewrite e_set. apply e_bare. Qed.
Lemma e_bind : forall A B (r : lres A) (k : A -> lres B), erase (lbind r k) = bind (erase r) (fun a => erase (k a)).
Proof. intros A B [a|e l0|u|] k; reflexivity. Qed.
Lemma bind_ext : forall A B (r : res A) (k k' : A -> res B), (forall a, r = Ok a -> k a = k' a) -> bind r k = bind r k'.
Proof. intros A B [a|e|u|] k k' H; try reflexivity. apply H. reflexivity. Qed.
Lemma bind_ext_eq : forall A B (r r' : res A) (k k' : A -> res B), r = r' -> (forall a, k a = k' a) -> bind r k = bind r' k'.
Proof. intros A B r r' k k' -> H. apply bind_ext. intros; apply H. Qed.

Lemma e_parse : forall l ts, erase (parse_located l ts) = parse ts.
Proof. intros l ts. unfold parse_located. destruct (parse ts) as [a|e|u|]; try reflexivity. destruct e; reflexivity. Qed.

Lemma e_entities : forall l es ld locs, bind (erase (lload_entities l ld locs es)) (fun p => Ok (fst p)) = load_entities ld es.
Proof.
  intros l es. induction es as [|e es IH]; intros ld locs; cbn [lload_entities load_entities]; [reflexivity|].
  rewrite e_bind, e_at. destruct (load_entity ld e) as [ld'|x|u|]; try reflexivity. cbn [bind]. apply IH.
Qed.
Lemma e_lines : forall file l n ld locs, bind (erase (lload_lines l n ld locs file)) (fun p => Ok (fst p)) = load_lines ld file.
Proof.
  induction file as [|s file IH]; intros l n ld locs; cbn [lload_lines load_lines]; [reflexivity|].
  rewrite e_bind, e_at. destruct (tokenize s) as [ts|x|u|]; try reflexivity. cbn [bind].
  rewrite e_bind, e_parse. destruct (parse ts) as [es|x|u|]; try reflexivity. cbn [bind].
  rewrite e_bind. rewrite <- (e_entities (loc_update l (Loc "" (AtLine (n + 1)))) es ld locs).
  destruct (lload_entities _ ld locs es) as [[ld' locs']|x l0|u|]; try reflexivity. cbn [bind erase fst]. apply IH.
Qed.
Lemma e_load : forall path file, bind (erase (lload_asm_file path file)) (fun lm => Ok (lm_mod lm)) = load_asm_file file.
Proof.
  intros path file. unfold lload_asm_file, load_asm_file. rewrite e_bind.
  rewrite <- (e_lines file (Loc path NoOffset) 0 (Loader empty_module [] []) []).
  destruct (lload_lines _ _ _ _ file) as [[ld locs]|x l0|u|]; try reflexivity. cbn [bind erase fst].
  destruct (ld_scopes ld); reflexivity.
Qed.

Lemma e_step : forall m locs ls st, erase (lfirst_pass_step m locs ls st) = first_pass_step m ls st.
Proof.
  intros m locs ls [|[k cur] rest]; [reflexivity|]. unfold lfirst_pass_step, first_pass_step.
  destruct (k =? zlen ls); [reflexivity|]. destruct (znth ls k) as [l|]; [|reflexivity].
  destruct (ln_reached l && es_eqb (ln_in l) cur); [reflexivity|].
  rewrite e_bind, e_at. apply bind_ext. intros next _. destruct (ln_stmt l) as [i|d]; [|reflexivity].
  destruct (is_local_branch i); [|reflexivity]. destruct (simple_identifier_opt (i_arg1 i)) as [t|]; [|reflexivity].
  destruct (local_index m t (ln_scopes l)) as [idx|x|u|]; try reflexivity. rewrite e_bind, e_at. reflexivity.
Qed.
Lemma e_loop : forall fuel m locs ls st, erase (lfirst_pass_loop fuel m locs ls st) = first_pass_loop fuel m ls st.
Proof.
  induction fuel as [|f IH]; intros m locs ls st; destruct st as [|p st]; try reflexivity.
  cbn [lfirst_pass_loop first_pass_loop]. rewrite e_bind, e_step. apply bind_ext. intros [ls' st'] _. apply IH.
Qed.
Lemma e_fix : forall ls k locs, erase (lfix_modes k locs ls) = fix_modes ls.
Proof.
  induction ls as [|l ls IH]; intros k locs; [reflexivity|]. cbn [lfix_modes fix_modes]. rewrite e_bind.
  apply bind_ext_eq; [|intros l'; rewrite e_bind; apply bind_ext_eq; [apply IH|reflexivity]].
  destruct (ln_stmt l) as [i|d]; [|reflexivity]. destruct (negb (ln_reached l)); [reflexivity|].
  rewrite e_bind, e_at. reflexivity.
Qed.
Lemma e_layout : forall ls k locs pc, erase (llayout k locs pc ls) = layout pc ls.
Proof.
  induction ls as [|l ls IH]; intros k locs pc; [reflexivity|]. cbn [llayout layout]. rewrite e_bind.
  apply bind_ext_eq.
  - destruct (ln_stmt l) as [i|d]; [reflexivity|]. destruct (d_name d); try reflexivity.
    rewrite e_bind, e_at. apply bind_ext. intros v _. rewrite e_bind, e_bare. reflexivity.
  - intros [a|]; [rewrite e_bind; apply bind_ext_eq; [apply IH|reflexivity]|].
    destruct (0 <? stmt_size (ln_stmt l)); [reflexivity|]. rewrite e_bind; apply bind_ext_eq; [apply IH|reflexivity].
Qed.
Lemma e_first : forall fuel lm, bind (erase (lrun_first_pass fuel lm)) (fun x => Ok (lm_mod x)) = run_first_pass fuel (lm_mod lm).
Proof.
  intros fuel lm. unfold lrun_first_pass, run_first_pass. rewrite e_bind, e_loop.
  destruct (first_pass_loop _ _ _ _) as [ls|x|u|]; try reflexivity. cbn [bind]. rewrite e_bind, e_fix.
  destruct (fix_modes ls) as [ls1|x|u|]; try reflexivity. cbn [bind]. rewrite e_bind, e_layout.
  destruct (layout None ls1) as [ls2|x|u|]; reflexivity.
Qed.
Lemma e_second_loop : forall n k ext locs m, erase (lsecond_pass_loop n k ext locs m) = second_pass_loop n k ext m.
Proof.
  induction n as [|n IH]; intros k ext locs m; [reflexivity|]. cbn [lsecond_pass_loop second_pass_loop].
  destruct (znth (md_lines m) k) as [l|]; [|reflexivity]. rewrite e_bind. apply bind_ext_eq; [|intros; apply IH].
  destruct (ln_stmt l) as [i|d]; [reflexivity|]. destruct (d_name d); try reflexivity. destruct (ln_value l); [reflexivity|].
  rewrite e_bind, e_at. reflexivity.
Qed.
Lemma e_second : forall ext lm, bind (erase (lrun_second_pass ext lm)) (fun x => Ok (lm_mod x)) = run_second_pass ext (lm_mod lm).
Proof.
  intros ext lm. unfold lrun_second_pass, run_second_pass. rewrite e_bind, e_second_loop.
  destruct (second_pass_loop _ _ _ _) as [m|x|u|]; reflexivity.
Qed.

Lemma w_bind : forall A B (x : lwres A) (k : list write -> A -> lwres B), werase (lwbind x k) = wbind (werase x) (fun ws a => werase (k ws a)).
Proof. intros A B [ws [a|e l|u|]] k; reflexivity. Qed.
Lemma wbind_ext : forall A B (x x' : wres A) (k k' : list write -> A -> wres B), x = x' -> (forall ws a, k ws a = k' ws a) -> wbind x k = wbind x' k'.
Proof. intros A B x [ws [a|e|u|]] k k' -> H; try reflexivity. apply H. Qed.
Lemma e_sink_write : forall sk ws w, werase (lsink_write sk ws w) = sink_write (erase_sink sk) ws w.
Proof. intros sk ws w. unfold lsink_write, sink_write, erase_sink, werase. cbn [fst snd]. destruct (sk ws w) as [[]|e l|u|]; reflexivity. Qed.
Lemma e_stmt_assemble : forall sk ws a c s, werase (lstmt_assemble sk ws a c s) = stmt_assemble (erase_sink sk) ws a c s.
Proof.
  intros. unfold lstmt_assemble, stmt_assemble. destruct (stmt_bytes a c s) as [[b|]|e|u|]; try reflexivity. apply e_sink_write.
Qed.
Lemma e_assemble_stmt : forall sk ext l0 l ws m, werase (lassemble_stmt sk ext l0 l ws m) = assemble_stmt (erase_sink sk) ext l ws m.
Proof.
  intros. unfold lassemble_stmt, assemble_stmt. destruct (0 <? stmt_size (ln_stmt l)).
  - destruct (ln_value l) as [v|]; [|reflexivity]. rewrite w_bind. apply wbind_ext; [unfold werase; cbn [fst snd]; rewrite e_bare; reflexivity|].
    intros ws0 a. rewrite w_bind. apply wbind_ext.
    + rewrite <- e_stmt_assemble. destruct (lstmt_assemble sk ws0 a _ (ln_stmt l)) as [ws1 r]. unfold werase. cbn [fst snd]. rewrite e_set. reflexivity.
    + intros ws1 []. rewrite w_bind. apply wbind_ext; [unfold werase; cbn [fst snd]; rewrite e_bare; reflexivity|].
      intros ws2 [[] owned]; reflexivity.
  - destruct (ln_stmt l) as [i|d]; [reflexivity|]. destruct (d_name d); try reflexivity.
    + destruct (ln_value l); [|reflexivity]. unfold werase. cbn [fst snd]. rewrite e_bind, e_bare. reflexivity.
    + unfold werase. cbn [fst snd]. rewrite e_bind, e_at. f_equal. apply bind_ext. intros v _. rewrite e_bind, e_bare. reflexivity.
Qed.
Lemma e_assemble_lines : forall sk ext locs ls k ws m, werase (lassemble_lines sk ext k locs ls ws m) = assemble_lines (erase_sink sk) ext ls ws m.
Proof.
  intros sk ext locs. induction ls as [|l ls IH]; intros k ws m; [reflexivity|]. cbn [lassemble_lines assemble_lines].
  rewrite w_bind. apply wbind_ext; [apply e_assemble_stmt|]. intros ws1 m1. rewrite w_bind.
  apply wbind_ext; [unfold werase; cbn [fst snd]; rewrite e_bare; reflexivity|]. intros ws2 m2. apply IH.
Qed.
Lemma e_names : forall locs ls gs acc, erase (lname_addresses locs ls gs acc) = name_addresses ls gs acc.
Proof.
  intros locs ls. induction gs as [|[n i] gs IH]; intros acc; [reflexivity|]. cbn [lname_addresses name_addresses].
  destruct (znth ls i) as [l|]; [|reflexivity]. destruct (ln_value l) as [v|]; [|reflexivity].
  rewrite e_bind, e_bare. apply bind_ext. intros a _. apply IH.
Qed.
Definition unloc {A B} (f : A -> B) (x : lwres A) : wres B := wbind (werase x) (fun ws a => (ws, Ok (f a))).
Lemma e_module : forall sk ext ws lm, unloc lm_mod (lmodule_assemble sk ext ws lm) = module_assemble (erase_sink sk) ext ws (lm_mod lm).
Proof.
  intros sk ext ws lm. unfold unloc, lmodule_assemble, module_assemble. rewrite w_bind, e_assemble_lines.
  destruct (assemble_lines _ _ _ _ _) as [ws1 [m|x|u|]]; try reflexivity. cbn [wbind]. unfold werase. cbn [fst snd].
  rewrite e_bind, e_names. destruct (name_addresses _ _ _) as [names|x|u|]; reflexivity.
Qed.

Lemma assoc_plain : forall id names, assoc_id id (plain_names names) = option_map fst (assoc_id id names).
Proof. intros id. induction names as [|[k [i l]] names IH]; [reflexivity|]. cbn. destruct (fullid_eqb k id); [reflexivity|exact IH]. Qed.
Lemma has_plain : forall id names, has_id id (plain_names names) = has_id id names.
Proof. intros. unfold has_id. rewrite assoc_plain. destruct (assoc_id id names); reflexivity. Qed.
Lemma e_exports : forall i ids names, bind (erase (ladd_exports i ids names)) (fun n => Ok (plain_names n)) = add_exports i (map fst ids) (plain_names names).
Proof.
  intros i. induction ids as [|[id l] ids IH]; intros names; [reflexivity|]. cbn [ladd_exports add_exports map fst].
  rewrite has_plain. unfold has_id. destruct (assoc_id id names) as [[j first]|]; [reflexivity|].
  rewrite IH. unfold plain_names. rewrite map_app. reflexivity.
Qed.
Lemma exported_fst : forall lm, map fst (lexported_names lm) = exported_names (lm_mod lm).
Proof. intros. unfold lexported_names, exported_names. rewrite map_map. reflexivity. Qed.
Lemma e_sweep : forall ms i order names found,
  bind (erase (lorder_sweep i ms order names found)) (fun '(o, n, f) => Ok (o, plain_names n, f)) =
  order_sweep i (map lm_mod ms) order (plain_names names) found.
Proof.
  induction ms as [|m ms IH]; intros i order names found; [reflexivity|]. cbn [lorder_sweep order_sweep map].
  destruct (existsb (Z.eqb i) order); [apply IH|].
  replace (forallb (fun d => has_id d (plain_names names)) (md_deps (lm_mod m))) with (forallb (fun d => has_id d names) (md_deps (lm_mod m))).
  2: { induction (md_deps (lm_mod m)) as [|d ds ID]; [reflexivity|]. cbn [forallb]. rewrite has_plain, ID. reflexivity. }
  destruct (forallb _ _); [|apply IH]. rewrite <- exported_fst, <- e_exports, e_bind.
  destruct (ladd_exports i (lexported_names m) names) as [n|x l|u|]; try reflexivity. cbn [bind erase]. apply IH.
Qed.
Lemma zlen_map : forall A B (f : A -> B) l, zlen (map f l) = zlen l.
Proof. intros. unfold zlen. rewrite map_length. reflexivity. Qed.
Lemma e_order : forall fuel ms order names,
  bind (erase (lorder_loop fuel ms order names)) (fun '(o, n) => Ok (o, plain_names n)) =
  order_loop fuel (map lm_mod ms) order (plain_names names).
Proof.
  induction fuel as [|f IH]; intros ms order names; cbn [lorder_loop order_loop]; rewrite zlen_map; destruct (zlen order <? zlen ms); try reflexivity.
  rewrite <- e_sweep, e_bind. destruct (lorder_sweep 0 ms order names false) as [[[o n] []]|x l|u|]; try reflexivity. cbn [bind erase]. apply IH.
Qed.
Lemma e_find : forall ms, bind (erase (lfind_assembly_order ms)) (fun '(o, n) => Ok (o, plain_names n)) = find_assembly_order (map lm_mod ms).
Proof. intros. unfold lfind_assembly_order, find_assembly_order. rewrite map_length. exact (e_order _ ms [] []). Qed.

Lemma znth_map : forall A B (f : A -> B) l i, znth (map f l) i = option_map f (znth l i).
Proof. intros A B f l i. unfold znth. destruct (i <? 0); [reflexivity|]. apply nth_error_map. Qed.
Lemma set_nth_map : forall A B (f : A -> B) l i x, set_nth i (f x) (map f l) = map f (set_nth i x l).
Proof. intros A B f. induction l as [|y l IH]; intros [|i] x; try reflexivity. cbn [map set_nth]. rewrite IH. reflexivity. Qed.
Lemma zset_map : forall A B (f : A -> B) l i x, zset i (f x) (map f l) = map f (zset i x l).
Proof. intros A B f l i x. unfold zset. destruct (i <? 0); [reflexivity|]. apply set_nth_map. Qed.

Lemma e_firsts : forall fuel order ms, bind (erase (lfirst_passes fuel order ms)) (fun x => Ok (map lm_mod x)) = first_passes fuel order (map lm_mod ms).
Proof.
  intros fuel. induction order as [|i order IH]; intros ms; [reflexivity|]. cbn [lfirst_passes first_passes]. rewrite znth_map.
  destruct (znth ms i) as [m|]; [|reflexivity]. cbn [option_map]. rewrite e_bind, <- e_first.
  destruct (lrun_first_pass fuel m) as [m'|x l|u|]; try reflexivity. cbn [bind erase]. rewrite zset_map. apply IH.
Qed.
Lemma e_seconds : forall order names ms, bind (erase (lsecond_passes order names ms)) (fun x => Ok (map lm_mod x)) = second_passes order names (map lm_mod ms).
Proof.
  induction order as [|i order IH]; intros names ms; [reflexivity|]. cbn [lsecond_passes second_passes]. rewrite znth_map.
  destruct (znth ms i) as [m|]; [|reflexivity]. cbn [option_map]. rewrite e_bind, <- e_second.
  destruct (lrun_second_pass _ m) as [m'|x l|u|]; try reflexivity. cbn [bind erase]. rewrite zset_map. apply IH.
Qed.
Lemma e_modules : forall sk order names ws ms rm,
  unloc (fun '(ms, rm) => (map lm_mod ms, rm)) (lassemble_modules sk order names ws ms rm) =
  assemble_modules (erase_sink sk) order names ws (map lm_mod ms) rm.
Proof.
  intros sk. induction order as [|i order IH]; intros names ws ms rm; [reflexivity|]. cbn [lassemble_modules assemble_modules].
  rewrite znth_map. destruct (znth ms i) as [m|]; [|reflexivity]. cbn [option_map]. rewrite <- e_module. unfold unloc at 1 2. rewrite w_bind.
  destruct (lmodule_assemble sk _ ws m) as [ws1 [m'|x l|u|]]; try reflexivity. cbn [werase fst snd erase wbind].
  destruct (rm_insert rm (md_owned (lm_mod m')) i) as [[] rm']; [|reflexivity]. rewrite zset_map. apply IH.
Qed.
Lemma e_files : forall files a, bind (erase (lload_files files)) (fun ms => Ok (Assembler (as_mods a ++ map lm_mod ms) (as_map a) (as_names a))) =
  add_files a (map snd files).
Proof.
  induction files as [|[path f] files IH]; intros a; cbn [lload_files add_files map snd].
  - cbn. rewrite app_nil_r. destruct a; reflexivity.
  - unfold add_asm_file. rewrite <- (e_load path f), e_bind. destruct (lload_asm_file path f) as [m|x l|u|]; try reflexivity. cbn [bind erase].
    rewrite <- IH. rewrite e_bind. destruct (lload_files files) as [ms|x l|u|]; try reflexivity. cbn [bind erase as_mods as_map as_names map].
    rewrite <- app_assoc. reflexivity.
Qed.

Lemma erased : forall fuel sk files, werase (lassemble fuel sk files) = assemble fuel (erase_sink sk) (map snd files).
Proof.
  intros fuel sk files. unfold lassemble, assemble. rewrite w_bind. rewrite <- (e_files files empty_assembler).
  destruct (lload_files files) as [ms|x l|u|]; try reflexivity. cbn [werase fst snd erase wbind bind].
  unfold assembler_assemble. cbn [as_mods as_map empty_assembler app]. rewrite w_bind, <- e_find.
  destruct (lfind_assembly_order ms) as [[order lnames]|x l|u|]; try reflexivity. cbn [werase fst snd erase wbind bind].
  rewrite w_bind, <- e_firsts. destruct (lfirst_passes fuel order ms) as [ms1|x l|u|]; try reflexivity. cbn [werase fst snd erase wbind bind].
  rewrite w_bind, <- e_seconds. destruct (lsecond_passes _ _ ms1) as [ms2|x l|u|]; try reflexivity. cbn [werase fst snd erase wbind bind].
  rewrite w_bind, <- e_modules. unfold unloc. destruct (lassemble_modules _ _ _ _ _ _) as [ws [[ms3 rm]|x l|u|]]; reflexivity.
Qed.

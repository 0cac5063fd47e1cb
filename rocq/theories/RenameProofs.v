(** The names of a program do not matter. *)
From Verif Require Import Base BaseProofs ModelNumeric ModelAddress ModelMnemonic ModelExpr ModelAMode ModelOpcode ModelState ModelInstr ModelToken ModelStatement ModelParse
  ModelMap ModelRanges ModelModule ModelAssembler SpecScope SpecRename MapProofs.
Open Scope string_scope.
Open Scope list_scope.
Open Scope Z_scope.
Local Opaque encode_opcode check_consistency.

Definition rmap {A B} (f : A -> B) (r : res A) : res B :=
  match r with Ok a => Ok (f a) | Err e => Err e | UB u => UB u | OutOfFuel => OutOfFuel end.
Lemma all2_weaken : forall A B (P Q : A -> B -> Prop) l l', (forall a b, P a b -> Q a b) -> Forall2 P l l' -> Forall2 Q l l'.
Proof. intros A B P Q l l' H F. induction F; constructor; auto. Qed.
Lemma rmap_bind : forall A B A' B' (f : A -> A') (g : B -> B') x y k k',
  y = rmap f x -> (forall a, x = Ok a -> k' (f a) = rmap g (k a)) -> bind y k' = rmap g (bind x k).
Proof. intros A B A' B' f g x y k k' -> K. destruct x; cbn [rmap bind]; [apply K; reflexivity|reflexivity..]. Qed.

Definition rpair (f : string -> string) (p : string * Z) : string * Z := (f (fst p), snd p).
Definition rline (f : string -> string) (l : line) : line :=
  Line (rename_statement f (ln_stmt l)) (map f (ln_labels l)) (ln_reached l) (ln_in l) (ln_value l) (ln_scopes l) (map (rpair f) (ln_locals l)).
Definition raddr (f : string -> string) (p : Z * string) : Z * string := (fst p, f (snd p)).
Definition rmod (f : string -> string) (m : module) : module :=
  MkModule (f (md_name m)) (map (rline f) (md_lines m)) (map (rename_id f) (md_deps m)) (map (rpair f) (md_globals m)) (md_owned m) (map (raddr f) (md_addr_names m))
    (md_targets m) (md_rets m).
Definition rname (f : string -> string) (p : fullid * Z) : fullid * Z := (rename_id f (fst p), snd p).
Definition rasm (f : string -> string) (a : assembler) : assembler := Assembler (map (rmod f) (as_mods a)) (as_map a) (map (rname f) (as_names a)).
Definition rctx (f : string -> string) (c c' : lookup_ctx) : Prop := forall id, c' (rename_id f id) = c id.

(** ** Names. *)
Lemma eqb_ren : forall f a b, naming f -> String.eqb (f a) (f b) = String.eqb a b.
Proof.
  intros f a b [I _]. destruct (String.eqb_spec a b) as [->|N]; [apply String.eqb_refl|]. apply String.eqb_neq. intros H. apply N, I, H.
Qed.
Lemma empty_ren : forall f a, naming f -> String.eqb (f a) "" = String.eqb a "".
Proof. intros f a N. rewrite <- (eqb_ren f a "" N). rewrite (proj2 N). reflexivity. Qed.
Lemma id_ren : forall f a b, naming f -> fullid_eqb (rename_id f a) (rename_id f b) = fullid_eqb a b.
Proof.
  intros f [m n] [m' n'] N. unfold fullid_eqb, rename_id. cbn [fi_module fi_name]. rewrite (eqb_ren f n n' N). f_equal.
  destruct m, m'; cbn; try reflexivity. apply eqb_ren. exact N.
Qed.
Lemma assoc_ren : forall f n l, naming f -> assoc_string (f n) (map (rpair f) l) = assoc_string n l.
Proof. intros f n l N. induction l as [|[k v] l IH]; [reflexivity|]. cbn [map rpair assoc_string fst snd]. rewrite (eqb_ren f _ _ N), IH. reflexivity. Qed.
Lemma search_ren : forall f n ss, naming f -> search_scopes (f n) (map (map (rpair f)) ss) = search_scopes n ss.
Proof. intros f n ss N. induction ss as [|s ss IH]; [reflexivity|]. cbn [map search_scopes]. rewrite (assoc_ren f n s N), IH. reflexivity. Qed.
Lemma znth_ren : forall A B (f : A -> B) l i, znth (map f l) i = option_map f (znth l i).
Proof. exact (fun A B f l i => MapProofs.znth_map _ _ f l i). Qed.
Lemma set_nth_ren : forall A B (f : A -> B) l i x, set_nth i (f x) (map f l) = map f (set_nth i x l).
Proof. intros A B f l. induction l as [|y l IH]; intros [|i] x; cbn; [reflexivity..|]. rewrite IH. reflexivity. Qed.
Lemma zset_ren : forall A B (f : A -> B) l i x, zset i (f x) (map f l) = map f (zset i x l).
Proof. intros. unfold zset. destruct (i <? 0); [reflexivity|apply set_nth_ren]. Qed.
Lemma zlen_ren : forall A B (f : A -> B) l, zlen (map f l) = zlen l.
Proof. intros. unfold zlen. rewrite map_length. reflexivity. Qed.
Lemma local_ren : forall f m n sc, naming f -> local_index (rmod f m) (f n) sc = local_index m n sc.
Proof.
  intros f m n sc N. unfold local_index. cbv zeta. cbn [rmod md_lines md_globals].
  replace (map _ sc ++ [map (rpair f) (md_globals m)]) with
    (map (map (rpair f)) (map (fun i => match znth (md_lines m) i with Some l => ln_locals l | None => [] end) sc ++ [md_globals m])).
  - rewrite (search_ren f n _ N). reflexivity.
  - rewrite map_app, map_map. cbn [map]. f_equal. apply map_ext. intros i. rewrite znth_ren. destruct (znth (md_lines m) i); reflexivity.
Qed.
Lemma lookup_ren : forall f m i, local_lookup (rmod f m) i = local_lookup m i.
Proof. intros. unfold local_lookup. cbn [rmod md_lines]. rewrite znth_ren. destruct (znth (md_lines m) i); reflexivity. Qed.
Lemma ctx_ren : forall f m sc c c', naming f -> rctx f c c' -> rctx f (module_ctx m sc c) (module_ctx (rmod f m) sc c').
Proof.
  intros f m sc c c' N C [md n]. unfold module_ctx. cbn [rename_id fi_module fi_name option_map]. destruct md as [mn|]; cbn [option_map].
  - cbn [rmod md_name]. rewrite (eqb_ren f _ _ N). destruct (String.eqb mn (md_name m)); [|apply (C (FullId (Some mn) n))].
    fold (rmod f m). rewrite (local_ren f m n [] N). destruct (local_index m n []); [apply lookup_ren|apply (C (FullId (Some mn) n))..].
  - rewrite (local_ren f m n sc N). pose proof (C (FullId (Some "") n)) as CE. unfold rename_id in CE. cbn [fi_module fi_name option_map] in CE. rewrite (proj2 N) in CE.
    destruct (local_index m n sc); [apply lookup_ren|exact CE..].
Qed.
Lemma is_local_ren : forall f m sc id, naming f -> is_local_ctx (rmod f m) sc (rename_id f id) = is_local_ctx m sc id.
Proof.
  intros f m sc [md n] N. unfold is_local_ctx. cbn [rename_id fi_module fi_name]. destruct md as [mn|]; cbn [option_map].
  - cbn [rmod md_name]. rewrite (eqb_ren f _ _ N). fold (rmod f m). rewrite (local_ren f m n [] N). reflexivity.
  - rewrite (local_ren f m n sc N). reflexivity.
Qed.

(** ** Expressions and statements. *)
Lemma eval_ren : forall f c c' e, rctx f c c' -> eval c' (rename_expr f e) = eval c e.
Proof.
  intros f c c' e C. induction e as [v t|id t|op l IHl r IHr|op a IH|n h IH]; cbn [rename_expr eval]; [reflexivity|apply C|rewrite IHl, IHr; reflexivity|rewrite IH; reflexivity|exact IH].
Qed.
Lemma eval_opt_ren : forall f c c' e, rctx f c c' -> eval_opt c' (option_map (rename_expr f) e) = eval_opt c e.
Proof. intros f c c' [e|] C; [apply eval_ren; exact C|reflexivity]. Qed.
Lemma null_ren : forall f, rctx f null_ctx null_ctx.
Proof. intros f id. reflexivity. Qed.
Lemma simple_ren : forall f e, simple_identifier_opt (option_map (rename_expr f) e) = option_map f (simple_identifier_opt e).
Proof. intros f [[]|]; try reflexivity. cbn. destruct id as [[m|] n]; reflexivity. Qed.
Lemma external_ren : forall f loc loc' e, naming f -> (forall id, loc' (rename_id f id) = loc id) -> external_names loc' (rename_expr f e) = map (rename_id f) (external_names loc e).
Proof.
  intros f loc loc' e N C. induction e as [v t|id t|op l IHl r IHr|op a IH|n h IH]; cbn [rename_expr external_names]; [reflexivity| |rewrite IHl, IHr, map_app; reflexivity|exact IH|reflexivity].
  rewrite C. destruct (loc id); [reflexivity|]. destruct id as [[m|] n]; cbn; [reflexivity|]. unfold rename_id. cbn. rewrite (proj2 N). reflexivity.
Qed.
Lemma maybe_ren : forall f c c' e, rctx f c c' -> maybe_arg c' (option_map (rename_expr f) e) = maybe_arg c e.
Proof. intros f c c' e C. unfold maybe_arg. rewrite (eval_opt_ren f c c' e C). reflexivity. Qed.
Definition rinstr (f : string -> string) (i : instr) : instr :=
  Instr (i_mnem i) (i_suffix i) (i_mode i) (option_map (rename_expr f) (i_arg1 i)) (option_map (rename_expr f) (i_arg2 i)) (i_ret i).
Lemma execute_ren : forall f i s, execute (rinstr f i) s = execute i s.
Proof.
  intros f i s. unfold execute, execute_in. change (check_consistency (rinstr f i) (es_flags s)) with (check_consistency (Instr (i_mnem i) (i_suffix i) (i_mode i) (option_map (rename_expr f) (i_arg1 i)) (option_map (rename_expr f) (i_arg2 i)) (i_ret i)) (es_flags s)).
  assert (CC : check_consistency (Instr (i_mnem i) (i_suffix i) (i_mode i) (option_map (rename_expr f) (i_arg1 i)) (option_map (rename_expr f) (i_arg2 i)) (i_ret i)) (es_flags s) = check_consistency i (es_flags s)).
  { Local Transparent check_consistency. unfold check_consistency. cbn [i_mnem i_suffix i_mode]. reflexivity. }
  rewrite CC. clear CC. destruct (check_consistency i (es_flags s)); [|reflexivity..]. cbn [bind rinstr i_mnem i_mode i_arg1 i_arg2 i_ret].
  pose proof (fun e => maybe_ren f null_ctx null_ctx e (null_ren f)) as MA. destruct (i_mnem i); cbv beta iota zeta; try reflexivity; rewrite !MA; reflexivity.
Qed.
Local Opaque check_consistency execute.
Lemma branch_ren : forall f i s, execute_branch (rinstr f i) s = execute_branch i s.
Proof. intros. unfold execute_branch. rewrite execute_ren. reflexivity. Qed.
Lemma stmt_execute_ren : forall f s es, stmt_execute (rename_statement f s) es = stmt_execute s es.
Proof. intros f [i|d] es; [apply (execute_ren f i)|reflexivity]. Qed.
Lemma stmt_exit_ren : forall f s, stmt_is_exit (rename_statement f s) = stmt_is_exit s.
Proof. intros f [i|d]; reflexivity. Qed.
Lemma stmt_size_ren : forall f s, stmt_size (rename_statement f s) = stmt_size s.
Proof. intros f [i|d]; [reflexivity|]. cbn. unfold directive_size. cbn [d_name d_list]. rewrite map_length. reflexivity. Qed.
Lemma encode_ren : forall f c c' n l, rctx f c c' -> encode_list n c' (map (rename_expr f) l) = encode_list n c l.
Proof. intros f c c' n l C. induction l as [|e l IH]; [reflexivity|]. cbn [map encode_list]. rewrite (eval_ren f c c' e C), IH. reflexivity. Qed.
Lemma bytes_ren : forall f c c' a s, rctx f c c' -> stmt_bytes a c' (rename_statement f s) = stmt_bytes a c s.
Proof.
  intros f c c' a [i|d] C; cbn [rename_statement stmt_bytes].
  - unfold instr_bytes. cbn [i_mnem i_mode i_arg1 i_arg2]. rewrite !(eval_opt_ren f c c' _ C). reflexivity.
  - unfold directive_bytes. cbn [d_name d_list]. rewrite (encode_ren f c c' _ _ C). reflexivity.
Qed.
Lemma far_ren : forall f i a, far_branch_target (rinstr f i) a = far_branch_target i a.
Proof. intros. unfold far_branch_target. cbn [rinstr i_mode i_mnem i_arg1]. rewrite (eval_opt_ren f _ _ _ (null_ren f)). reflexivity. Qed.
Lemma fix_ren : forall f i fl, fix_addressing_mode (rinstr f i) fl = rmap (rinstr f) (fix_addressing_mode i fl).
Proof. intros. unfold fix_addressing_mode. cbn [rinstr i_mode]. destruct (i_mode i); try reflexivity; [destruct (fl_m fl)|destruct (fl_x fl)]; reflexivity. Qed.

(** ** Loading. *)
Lemma back_ren : forall f g g' m, (forall l, g' (rline f l) = rline f (g l)) -> upd_back g' (rmod f m) = rmod f (upd_back g m).
Proof.
  intros f g g' m G. unfold upd_back. cbv zeta. cbn [rmod md_lines]. rewrite zlen_ren, znth_ren. destruct (znth (md_lines m) _) as [l|]; [|reflexivity]. cbn [option_map].
  rewrite G, zset_ren. reflexivity.
Qed.
Lemma add_label_ren : forall f m sc n x t, naming f -> add_label (rmod f m) sc (f n) x t = rmap (rmod f) (add_label m sc n x t).
Proof.
  intros f m sc n x t N. assert (G : match assoc_string (f n) (md_globals (rmod f m)) with Some _ => Err E_duplicate | None => Ok (md_with_globals (md_globals (rmod f m) ++ [(f n, t)]) (rmod f m)) end =
    rmap (rmod f) match assoc_string n (md_globals m) with Some _ => Err E_duplicate | None => Ok (md_with_globals (md_globals m ++ [(n, t)]) m) end).
  { cbn [rmod md_globals]. rewrite (assoc_ren f n _ N). destruct (assoc_string n (md_globals m)); [reflexivity|]. cbn [rmap]. f_equal. unfold md_with_globals, rmod. cbn. rewrite map_app. reflexivity. }
  unfold add_label. destruct sc as [|i sc]; [destruct x; exact G|]. destruct x; [exact G|]. cbn [rmod md_lines]. rewrite znth_ren. destruct (znth (md_lines m) i) as [l|]; [|reflexivity].
  cbn [option_map rline ln_locals]. rewrite (assoc_ren f n _ N). destruct (assoc_string n (ln_locals l)); [reflexivity|]. cbn [rmap]. f_equal. unfold md_with_lines, rmod. cbn. f_equal.
  rewrite <- zset_ren. f_equal. unfold ln_with_locals, rline. cbn. rewrite map_app. reflexivity.
Qed.
Definition rlabel (f : string -> string) (nx : string * bool) : string * bool := (f (fst nx), snd nx).
Lemma add_pending_ren : forall f sc p m, naming f -> add_pending (rmod f m) sc (map (rlabel f) p) = rmap (rmod f) (add_pending m sc p).
Proof.
  intros f sc p m N. revert m. induction p as [|[n x] p IH]; intros m; [reflexivity|]. cbn [map rlabel fst snd add_pending].
  apply (rmap_bind _ _ _ _ (rmod f)); [cbn [rmod md_lines]; rewrite zlen_ren; fold (rmod f m); apply add_label_ren; exact N|]. intros m1 _.
  rewrite (back_ren f (ln_add_label n)); [apply IH|]. intros l. unfold ln_add_label, rline. cbn. rewrite map_app. reflexivity.
Qed.
(** What LoadAsmFile does with one statement and the labels before it. *)
Definition load_one (m : module) (sc : list Z) (p : list (string * bool)) (s : statement) : res loader :=
  let* m := add_pending (md_with_lines (md_lines m ++ [new_line s]) m) sc p in
  load_directive (upd_back (ln_with_scopes sc) m) sc s.
Fixpoint load_source (m : module) (sc : list Z) (src : source) : res (module * list Z) :=
  match src with
  | [] => Ok (m, sc)
  | (p, s) :: src' => let* ld := load_one m sc p s in load_source (ld_mod ld) (ld_scopes ld) src'
  end.
Lemma directive_pending : forall m sc s ld, load_directive m sc s = Ok ld -> ld_pending ld = [].
Proof.
  intros m sc [i|d] ld H; cbn [load_directive] in H; [injection H as <-; reflexivity|].
  destruct (d_name d); try (injection H as <-; reflexivity).
  - destruct sc; [discriminate H|]. injection H as <-. reflexivity.
  - destruct (negb _); [discriminate H|]. destruct (simple_identifier_opt _); [|discriminate H]. injection H as <-. reflexivity.
Qed.
Lemma load_statements : forall es m p sc, rmap (fun ld => (ld_mod ld, ld_scopes ld)) (load_entities (Loader m p sc) es) = load_source m sc (statements p es).
Proof.
  induction es as [|[n x|s] es IH]; intros m p sc; [reflexivity|apply IH|]. cbn [load_entities load_entity statements load_source ld_mod ld_pending ld_scopes].
  unfold load_one. destruct (add_pending _ sc p) as [m1|e|u|]; cbn [bind]; try reflexivity.
  destruct (load_directive (upd_back (ln_with_scopes sc) m1) sc s) as [[m2 p2 sc2]|e|u|] eqn:D; cbn [bind]; try reflexivity.
  apply directive_pending in D. cbn in D. subst p2. apply IH.
Qed.
Lemma load_entities_app : forall a b ld, load_entities ld (a ++ b) = bind (load_entities ld a) (fun ld => load_entities ld b).
Proof. induction a as [|e a IH]; intros b ld; [reflexivity|]. cbn [app load_entities]. destruct (load_entity ld e); cbn [bind]; [apply IH|reflexivity..]. Qed.
Lemma load_lines_entities : forall file ess ld, Forall2 (fun line es => exists ts, tokenize line = Ok ts /\ parse ts = Ok es) file ess ->
  load_lines ld file = load_entities ld (concat ess).
Proof.
  intros file ess ld F. revert ld. induction F as [|line es file ess (ts & T & P) F IH]; intros ld; [reflexivity|]. cbn [load_lines concat]. rewrite T. cbn [bind]. rewrite P. cbn [bind].
  rewrite load_entities_app. destruct (load_entities ld es); cbn [bind]; [apply IH|reflexivity..].
Qed.
Lemma load_reads : forall file src, reads file src ->
  load_asm_file file = bind (load_source empty_module [] src) (fun '(m, sc) => match sc with _ :: _ => Err E_scope | [] => Ok (md_with_deps (compute_deps m) m) end).
Proof.
  intros file src (ess & F & ->). unfold load_asm_file. rewrite (load_lines_entities _ _ _ F), <- load_statements.
  destruct (load_entities _ (concat ess)) as [[m p sc]|e|u|]; reflexivity.
Qed.
Definition rloaded (f : string -> string) (ld : loader) : loader := Loader (rmod f (ld_mod ld)) (map (rlabel f) (ld_pending ld)) (ld_scopes ld).
Lemma directive_ren : forall f m sc s, naming f -> load_directive (rmod f m) sc (rename_statement f s) = rmap (rloaded f) (load_directive m sc s).
Proof.
  intros f m sc [i|d] N; cbn [rename_statement load_directive]; [reflexivity|]. cbn [d_name d_arg]. destruct (d_name d); try reflexivity.
  - cbn [rmod md_lines]. rewrite zlen_ren. reflexivity.
  - destruct sc; reflexivity.
  - cbn [rmod md_name]. rewrite (empty_ren f _ N). destruct (negb _); [reflexivity|]. rewrite simple_ren. destruct (simple_identifier_opt (d_arg d)); reflexivity.
Qed.
Lemma load_one_ren : forall f m sc p s, naming f -> load_one (rmod f m) sc (map (rlabel f) p) (rename_statement f s) = rmap (rloaded f) (load_one m sc p s).
Proof.
  intros f m sc p s N. unfold load_one. apply (rmap_bind _ _ _ _ (rmod f)).
  - replace (md_with_lines (md_lines (rmod f m) ++ [new_line (rename_statement f s)]) (rmod f m)) with (rmod f (md_with_lines (md_lines m ++ [new_line s]) m)); [apply add_pending_ren; exact N|].
    unfold md_with_lines, rmod. cbn. rewrite map_app. reflexivity.
  - intros m1 _. rewrite (back_ren f (ln_with_scopes sc)) by reflexivity. apply directive_ren. exact N.
Qed.
Lemma load_source_ren : forall f src m sc, naming f -> load_source (rmod f m) sc (rename_source f src) = rmap (fun p => (rmod f (fst p), snd p)) (load_source m sc src).
Proof.
  intros f src m sc N. revert m sc. induction src as [|[p s] src IH]; intros m sc; [reflexivity|]. cbn [rename_source map load_source fst snd].
  apply (rmap_bind _ _ _ _ (rloaded f)); [apply (load_one_ren f m sc p s N)|]. intros ld _. apply IH.
Qed.
Lemma deps_ren : forall f m, naming f -> compute_deps (rmod f m) = map (rename_id f) (compute_deps m).
Proof.
  intros f m N. unfold compute_deps. cbn [rmod md_lines]. fold (rmod f m).
  assert (X : forall ls, flat_map (fun l => match ln_stmt l with SDir d => match d_name d with D_equ => external_names_opt (is_local_ctx (rmod f m) (ln_scopes l)) (d_arg d) | _ => [] end | SInstr _ => [] end) (map (rline f) ls) =
    map (rename_id f) (flat_map (fun l => match ln_stmt l with SDir d => match d_name d with D_equ => external_names_opt (is_local_ctx m (ln_scopes l)) (d_arg d) | _ => [] end | SInstr _ => [] end) ls)); [|apply X].
  induction ls as [|l ls IH]; [reflexivity|]. cbn [map flat_map]. rewrite map_app, IH. f_equal. cbn [rline ln_stmt ln_scopes]. destruct (ln_stmt l) as [i|d]; [reflexivity|]. cbn [rename_statement d_name d_arg].
  destruct (d_name d); try reflexivity. destruct (d_arg d) as [e|]; [|reflexivity]. cbn [option_map external_names_opt]. apply external_ren; [exact N|]. intros id. apply is_local_ren. exact N.
Qed.
Lemma load_ren : forall f file file', naming f -> renamed f file file' -> load_asm_file file' = rmap (rmod f) (load_asm_file file).
Proof.
  intros f file file' N (src & R & R'). rewrite (load_reads _ _ R), (load_reads _ _ R').
  apply (rmap_bind _ _ _ _ (fun p => (rmod f (fst p), snd p))).
  - rewrite <- load_source_ren by exact N. f_equal. unfold empty_module, rmod. cbn. rewrite (proj2 N). reflexivity.
  - intros [m sc] _. cbn [fst snd]. destruct sc; [|reflexivity]. cbn [rmap]. rewrite (deps_ren f m N). reflexivity.
Qed.

(** ** The passes. *)
Lemma entry_ren : forall f ls i st, entry_states i (map (rline f) ls) st = entry_states i ls st.
Proof.
  intros f ls. induction ls as [|l ls IH]; intros i st; [reflexivity|]. cbn [map entry_states]. rewrite IH. cbn [rline ln_stmt]. destruct (ln_stmt l) as [j|d]; reflexivity.
Qed.
Definition rstep (f : string -> string) (p : list line * omap estate) : list line * omap estate := (map (rline f) (fst p), snd p).
Lemma first_step_ren : forall f m ls st, naming f -> first_pass_step (rmod f m) (map (rline f) ls) st = rmap (rstep f) (first_pass_step m ls st).
Proof.
  intros f m ls st N. unfold first_pass_step. destruct st as [|[k cur] rest]; [reflexivity|]. rewrite zlen_ren. destruct (k =? zlen ls); [reflexivity|]. rewrite znth_ren.
  destruct (znth ls k) as [l|]; [|reflexivity]. cbn [option_map]. cbn [rline ln_reached ln_in ln_stmt ln_scopes].
  destruct (ln_reached l && es_eqb (ln_in l) cur); [reflexivity|]. cbv zeta. rewrite stmt_execute_ren, stmt_exit_ren. fold (rline f l).
  change (ln_visit cur (rline f l)) with (rline f (ln_visit cur l)). rewrite zset_ren. apply (rmap_bind _ _ _ _ (fun x => x)); [destruct (stmt_execute (ln_stmt l) cur); reflexivity|]. intros next _.
  destruct (ln_stmt l) as [i|d]; cbn [rename_statement]; [|reflexivity]. change (is_local_branch (Instr (i_mnem i) (i_suffix i) (i_mode i) (option_map (rename_expr f) (i_arg1 i)) (option_map (rename_expr f) (i_arg2 i)) (i_ret i))) with (is_local_branch i).
  destruct (is_local_branch i); [|reflexivity]. cbn [i_arg1]. rewrite simple_ren. destruct (simple_identifier_opt (i_arg1 i)) as [t|]; [|reflexivity]. cbn [option_map].
  rewrite (local_ren f m t _ N). destruct (local_index m t (ln_scopes l)); try reflexivity. fold (rinstr f i). rewrite branch_ren. destruct (execute_branch i cur); reflexivity.
Qed.
Lemma first_loop_ren : forall f fuel m ls st, naming f -> first_pass_loop fuel (rmod f m) (map (rline f) ls) st = rmap (map (rline f)) (first_pass_loop fuel m ls st).
Proof.
  intros f fuel m ls st N. revert ls st. induction fuel as [|fuel IH]; intros ls st; [destruct st; reflexivity|]. cbn [first_pass_loop]. destruct st as [|p st]; [reflexivity|].
  apply (rmap_bind _ _ _ _ (rstep f)); [apply first_step_ren; exact N|]. intros [ls1 st1] _. apply IH.
Qed.
Lemma modes_ren : forall f ls, fix_modes (map (rline f) ls) = rmap (map (rline f)) (fix_modes ls).
Proof.
  intros f ls. induction ls as [|l ls IH]; [reflexivity|]. cbn [map fix_modes]. apply (rmap_bind _ _ _ _ (rline f)).
  - cbn [rline ln_stmt ln_reached ln_in]. destruct (ln_stmt l) as [i|d]; cbn [rename_statement]; [|unfold rline at 1; cbn; destruct l; reflexivity].
    destruct (negb (ln_reached l)); [reflexivity|]. fold (rinstr f i). rewrite fix_ren. destruct (fix_addressing_mode i _); reflexivity.
  - intros l' _. apply (rmap_bind _ _ _ _ (map (rline f))); [exact IH|]. intros r _. reflexivity.
Qed.
Lemma layout_ren : forall f ls pc, layout pc (map (rline f) ls) = rmap (map (rline f)) (layout pc ls).
Proof.
  intros f ls. induction ls as [|l ls IH]; intros pc; [reflexivity|]. cbn [map layout]. cbv zeta. apply (rmap_bind _ _ _ _ (fun x => x)).
  - cbn [rline ln_stmt]. destruct (ln_stmt l) as [i|d]; cbn [rename_statement]; [reflexivity|]. cbn [d_name d_arg]. destruct (d_name d); try reflexivity.
    rewrite (eval_opt_ren f _ _ _ (null_ren f)). destruct (eval_opt null_ctx (d_arg d)) as [v|e|u|]; cbn [bind rmap]; try reflexivity. destruct (mk_address v); reflexivity.
  - intros pc' _. cbn [rline ln_stmt]. rewrite stmt_size_ren. fold (rline f l). destruct pc' as [a|].
    + apply (rmap_bind _ _ _ _ (map (rline f))); [apply IH|]. intros r _. cbn [rmap map]. f_equal. f_equal. destruct (ln_stmt l) as [i|d] eqn:E; cbn; [unfold ln_with_value, rline; cbn; reflexivity|].
      destruct (dir_eqb (d_name d) D_equ); reflexivity.
    + destruct (0 <? _); [reflexivity|]. apply (rmap_bind _ _ _ _ (map (rline f))); [apply IH|]. intros r _. reflexivity.
Qed.
Lemma first_ren : forall f fuel m, naming f -> run_first_pass fuel (rmod f m) = rmap (rmod f) (run_first_pass fuel m).
Proof.
  intros f fuel m N. unfold run_first_pass. cbn [rmod md_lines]. fold (rmod f m). rewrite entry_ren.
  apply (rmap_bind _ _ _ _ (map (rline f))); [apply first_loop_ren; exact N|]. intros l1 _. apply (rmap_bind _ _ _ _ (map (rline f))); [apply modes_ren|]. intros l2 _.
  apply (rmap_bind _ _ _ _ (map (rline f))); [apply layout_ren|]. intros l3 _. reflexivity.
Qed.
Lemma second_loop_ren : forall f n k ext ext' m, naming f -> (forall m, rctx f (ext m) (ext' (rmod f m))) ->
  second_pass_loop n k ext' (rmod f m) = rmap (rmod f) (second_pass_loop n k ext m).
Proof.
  intros f n k ext ext' m N C. revert k m. induction n as [|n IH]; intros k m; [reflexivity|]. cbn [second_pass_loop]. cbn [rmod md_lines]. fold (rmod f m). rewrite znth_ren.
  destruct (znth (md_lines m) k) as [l|]; [|reflexivity]. cbn [option_map]. apply (rmap_bind _ _ _ _ (rmod f)); [|intros m1 _; apply IH].
  cbn [rline ln_stmt ln_value ln_scopes]. destruct (ln_stmt l) as [i|d] eqn:E; cbn [rename_statement]; [reflexivity|]. cbn [d_name d_arg]. destruct (d_name d); try reflexivity. destruct (ln_value l) eqn:V; [reflexivity|].
  apply (rmap_bind _ _ _ _ (fun x => x)).
  - rewrite (eval_opt_ren f (module_ctx m (ln_scopes l) (ext m))); [destruct (eval_opt _ (d_arg d)); reflexivity|]. apply ctx_ren; [exact N|apply C].
  - intros v _. cbn [rmap]. f_equal. unfold md_with_lines, rmod. cbn. f_equal. rewrite <- zset_ren. unfold ln_with_value, rline. cbn. rewrite E. reflexivity.
Qed.
Lemma second_ren : forall f ext ext' m, naming f -> (forall m, rctx f (ext m) (ext' (rmod f m))) -> run_second_pass ext' (rmod f m) = rmap (rmod f) (run_second_pass ext m).
Proof. intros f ext ext' m N C. unfold run_second_pass. cbn [rmod md_lines]. rewrite map_length. apply second_loop_ren; assumption. Qed.

(** ** Writing. *)
Definition wmap {A B} (g : A -> B) (x : wres A) : wres B := (fst x, rmap g (snd x)).
Lemma wmap_bind : forall A B A' B' (f : A -> A') (g : B -> B') x y k k',
  y = wmap f x -> (forall ws a, k' ws (f a) = wmap g (k ws a)) -> wbind y k' = wmap g (wbind x k).
Proof. intros A B A' B' f g [ws x] y k k' -> K. destruct x; cbn; [apply K|reflexivity..]. Qed.
Lemma wmap_id : forall A (x : wres A), x = wmap (fun a => a) x.
Proof. intros A [ws [a|e|u|]]; reflexivity. Qed.
Lemma far_target_ren : forall f l i m, record_far_target (rline f l) (rinstr f i) (rmod f m) = rmap (rmod f) (record_far_target l i m).
Proof.
  intros. unfold record_far_target. cbn [rline ln_value ln_in]. destruct (ln_value l) as [v|]; [|reflexivity]. destruct (label_to_address v) as [a|e|u|]; cbn [bind rmap]; try reflexivity.
  rewrite far_ren. destruct (far_branch_target i a) as [[t|]|e|u|]; reflexivity.
Qed.
Lemma assemble_stmt_ren : forall f sk ext ext' l ws m, naming f -> rctx f ext ext' -> assemble_stmt sk ext' (rline f l) ws (rmod f m) = wmap (rmod f) (assemble_stmt sk ext l ws m).
Proof.
  intros f sk ext ext' l ws m N C. unfold assemble_stmt. cbv zeta. cbn [rline ln_stmt ln_value ln_scopes]. rewrite stmt_size_ren.
  pose proof (ctx_ren f m (ln_scopes l) ext ext' N C) as CM. destruct (0 <? stmt_size (ln_stmt l)).
  - destruct (ln_value l) as [v|]; [|reflexivity]. apply (wmap_bind _ _ _ _ (fun a => a)); [apply wmap_id|]. intros ws1 a. apply (wmap_bind _ _ _ _ (fun a => a)).
    + unfold stmt_assemble. rewrite (bytes_ren f _ _ a (ln_stmt l) CM). apply wmap_id.
    + intros ws2 _. cbn [rmod md_owned]. apply (wmap_bind _ _ _ _ (fun a => a)); [apply wmap_id|]. intros ws3 [ok owned]. destruct ok; reflexivity.
  - destruct (ln_stmt l) as [i|d]; cbn [rename_statement]; [reflexivity|]. cbn [d_name d_arg d_ret d_flags]. destruct (d_name d); try reflexivity.
    + destruct (ln_value l) as [v|]; [|reflexivity]. destruct (label_to_address v); try reflexivity. cbn. destruct (rc_is_default (d_ret d)); reflexivity.
    + unfold wmap. cbn [fst snd]. f_equal. rewrite (eval_opt_ren f _ _ _ CM). destruct (eval_opt _ (d_arg d)) as [v|e|u|]; cbn [bind rmap]; try reflexivity. destruct (mk_address v); try reflexivity.
      cbn. destruct (rc_is_default (d_ret d)); reflexivity.
Qed.
Lemma assemble_lines_ren : forall f sk ext ext' ls ws m, naming f -> rctx f ext ext' -> assemble_lines sk ext' (map (rline f) ls) ws (rmod f m) = wmap (rmod f) (assemble_lines sk ext ls ws m).
Proof.
  intros f sk ext ext' ls ws m N C. revert ws m. induction ls as [|l ls IH]; intros ws m; [reflexivity|]. cbn [map assemble_lines].
  apply (wmap_bind _ _ _ _ (rmod f)); [apply assemble_stmt_ren; assumption|]. intros ws1 m1. apply (wmap_bind _ _ _ _ (rmod f)); [|exact IH].
  unfold wmap. cbn [fst snd]. f_equal. cbn [rline ln_stmt]. destruct (ln_stmt l) as [i|d]; [|reflexivity]. fold (rline f l). apply far_target_ren.
Qed.
Lemma assoc_z_ren : forall f a l, assoc_z a (map (raddr f) l) = option_map f (assoc_z a l).
Proof. intros f a l. induction l as [|[k n] l IH]; [reflexivity|]. cbn. destruct (k =? a); [reflexivity|exact IH]. Qed.
Lemma name_ren : forall f ls gs acc, name_addresses (map (rline f) ls) (map (rpair f) gs) (map (raddr f) acc) = rmap (map (raddr f)) (name_addresses ls gs acc).
Proof.
  intros f ls gs. induction gs as [|[n i] gs IH]; intros acc; [reflexivity|]. cbn [map rpair fst snd name_addresses]. rewrite znth_ren. destruct (znth ls i) as [l|]; [|reflexivity]. cbn [option_map rline ln_value].
  destruct (ln_value l) as [v|]; [|reflexivity]. destruct (label_to_address v) as [a|e|u|]; cbn [bind rmap]; try reflexivity. rewrite assoc_z_ren. rewrite <- IH. f_equal.
  destruct (assoc_z a acc); [reflexivity|]. rewrite map_app. reflexivity.
Qed.
Lemma assemble_module_ren : forall f sk ext ext' ws m, naming f -> rctx f ext ext' -> module_assemble sk ext' ws (rmod f m) = wmap (rmod f) (module_assemble sk ext ws m).
Proof.
  intros f sk ext ext' ws m N C. unfold module_assemble. apply (wmap_bind _ _ _ _ (rmod f)); [apply assemble_lines_ren; assumption|]. intros ws1 m1. unfold wmap. cbn [fst snd]. f_equal.
  apply (rmap_bind _ _ _ _ (map (raddr f))); [apply name_ren|]. intros names _. reflexivity.
Qed.

(** ** Programs. *)
Lemma value_ren : forall f m id, naming f -> value_for_name (rmod f m) (rename_id f id) = value_for_name m id.
Proof.
  intros f m [[mn|] n] N; [|reflexivity]. unfold value_for_name. cbn [rename_id fi_module fi_name option_map]. cbn [rmod md_name md_globals md_lines]. rewrite (eqb_ren f _ _ N), (assoc_ren f _ _ N).
  destruct (String.eqb mn (md_name m)); [|reflexivity]. destruct (assoc_string n (md_globals m)) as [i|]; [|reflexivity]. rewrite znth_ren. destruct (znth (md_lines m) i); reflexivity.
Qed.
Lemma assoc_id_ren : forall f id l, naming f -> assoc_id (rename_id f id) (map (rname f) l) = assoc_id id l.
Proof. intros f id l N. induction l as [|[k v] l IH]; [reflexivity|]. cbn [map rname fst snd assoc_id]. rewrite (id_ren f _ _ N), IH. reflexivity. Qed.
Lemma asm_ctx_ren : forall f ms names, naming f -> rctx f (assembler_ctx ms names) (assembler_ctx (map (rmod f) ms) (map (rname f) names)).
Proof.
  intros f ms names N id. unfold assembler_ctx. rewrite (assoc_id_ren f id names N).
  replace (fi_qualified (rename_id f id)) with (fi_qualified id) by (destruct id as [[|] ?]; reflexivity). destruct (negb (fi_qualified id)); [reflexivity|].
  destruct (assoc_id id names) as [i|]; [|reflexivity]. rewrite znth_ren. destruct (znth ms i); [|reflexivity]. apply value_ren. exact N.
Qed.
Lemma exports_ren : forall f i ids names, naming f -> add_exports i (map (rename_id f) ids) (map (rname f) names) = rmap (map (rname f)) (add_exports i ids names).
Proof.
  intros f i ids names N. revert names. induction ids as [|id ids IH]; intros names; [reflexivity|]. cbn [map add_exports]. unfold has_id. rewrite (assoc_id_ren f id names N).
  destruct (assoc_id id names); [reflexivity|]. rewrite <- IH, map_app. reflexivity.
Qed.
Lemma deps_has_ren : forall f names ds, naming f -> forallb (fun d => has_id d (map (rname f) names)) (map (rename_id f) ds) = forallb (fun d => has_id d names) ds.
Proof. intros f names ds N. induction ds as [|d ds IH]; [reflexivity|]. cbn [map forallb]. rewrite IH. unfold has_id. rewrite (assoc_id_ren f d names N). reflexivity. Qed.
Lemma exported_ren : forall f m, exported_names (rmod f m) = map (rename_id f) (exported_names m).
Proof. intros f m. unfold exported_names. cbn [rmod md_globals md_name]. rewrite !map_map. reflexivity. Qed.
Definition rsweep (f : string -> string) (x : list Z * list (fullid * Z) * bool) : list Z * list (fullid * Z) * bool := let '(o, n, b) := x in (o, map (rname f) n, b).
Lemma sweep_ren : forall f ms i order names b, naming f -> order_sweep i (map (rmod f) ms) order (map (rname f) names) b = rmap (rsweep f) (order_sweep i ms order names b).
Proof.
  intros f ms i order names b N. revert i order names b. induction ms as [|m ms IH]; intros i order names b; [reflexivity|]. cbn [map order_sweep].
  destruct (existsb (Z.eqb i) order); [apply IH|]. cbn [rmod md_deps]. fold (rmod f m). rewrite (deps_has_ren f names _ N). destruct (forallb _ (md_deps m)); [|apply IH].
  apply (rmap_bind _ _ _ _ (map (rname f))); [rewrite exported_ren; apply exports_ren; exact N|]. intros names1 _. apply IH.
Qed.
Definition rorder (f : string -> string) (x : list Z * list (fullid * Z)) : list Z * list (fullid * Z) := (fst x, map (rname f) (snd x)).
Lemma order_loop_ren : forall f fuel ms order names, naming f -> order_loop fuel (map (rmod f) ms) order (map (rname f) names) = rmap (rorder f) (order_loop fuel ms order names).
Proof.
  intros f fuel ms order names N. revert order names. induction fuel as [|fuel IH]; intros order names; cbn [order_loop]; rewrite zlen_ren; (destruct (zlen order <? zlen ms); [|reflexivity]); [reflexivity|].
  apply (rmap_bind _ _ _ _ (rsweep f)); [apply sweep_ren; exact N|]. intros [[o n] found] _. cbn [rsweep]. destruct found; [apply IH|reflexivity].
Qed.
Lemma find_order_ren : forall f ms, naming f -> find_assembly_order (map (rmod f) ms) = rmap (rorder f) (find_assembly_order ms).
Proof. intros f ms N. unfold find_assembly_order. rewrite map_length. apply (order_loop_ren f _ ms [] [] N). Qed.
Lemma first_passes_ren : forall f fuel order ms, naming f -> first_passes fuel order (map (rmod f) ms) = rmap (map (rmod f)) (first_passes fuel order ms).
Proof.
  intros f fuel order ms N. revert ms. induction order as [|i order IH]; intros ms; [reflexivity|]. cbn [first_passes]. rewrite znth_ren. destruct (znth ms i) as [m|]; [|reflexivity]. cbn [option_map].
  apply (rmap_bind _ _ _ _ (rmod f)); [apply first_ren; exact N|]. intros m1 _. rewrite zset_ren. apply IH.
Qed.
Lemma second_passes_ren : forall f order names ms, naming f -> second_passes order (map (rname f) names) (map (rmod f) ms) = rmap (map (rmod f)) (second_passes order names ms).
Proof.
  intros f order names ms N. revert ms. induction order as [|i order IH]; intros ms; [reflexivity|]. cbn [second_passes]. rewrite znth_ren. destruct (znth ms i) as [m|]; [|reflexivity]. cbn [option_map].
  apply (rmap_bind _ _ _ _ (rmod f)); [apply second_ren; [exact N|]; intros m1; rewrite zset_ren; apply asm_ctx_ren; exact N|]. intros m1 _. rewrite zset_ren. apply IH.
Qed.
Lemma modules_ren : forall f sk order names ws ms rm, naming f ->
  assemble_modules sk order (map (rname f) names) ws (map (rmod f) ms) rm = wmap (fun p => (map (rmod f) (fst p), snd p)) (assemble_modules sk order names ws ms rm).
Proof.
  intros f sk order names ws ms rm N. revert ws ms rm. induction order as [|i order IH]; intros ws ms rm; [reflexivity|]. cbn [assemble_modules]. rewrite znth_ren. destruct (znth ms i) as [m|]; [|reflexivity]. cbn [option_map].
  apply (wmap_bind _ _ _ _ (rmod f)); [apply assemble_module_ren; [exact N|apply asm_ctx_ren; exact N]|]. intros ws1 m1. cbn [rmod md_owned]. fold (rmod f m1).
  destruct (rm_insert rm (md_owned m1) i) as [[|] rm1]; [|reflexivity]. rewrite zset_ren. apply IH.
Qed.
Lemma assembler_ren : forall f fuel sk a, naming f -> assembler_assemble fuel sk (rasm f a) = wmap (rasm f) (assembler_assemble fuel sk a).
Proof.
  intros f fuel sk a N. unfold assembler_assemble. cbn [rasm as_mods as_map].
  apply (wmap_bind _ _ _ _ (rorder f)); [unfold wmap; cbn [fst snd]; f_equal; apply find_order_ren; exact N|]. intros ws1 [order names]. cbn [rorder fst snd].
  apply (wmap_bind _ _ _ _ (map (rmod f))); [unfold wmap; cbn [fst snd]; f_equal; apply first_passes_ren; exact N|]. intros ws2 ms2.
  apply (wmap_bind _ _ _ _ (map (rmod f))); [unfold wmap; cbn [fst snd]; f_equal; apply second_passes_ren; exact N|]. intros ws3 ms3.
  apply (wmap_bind _ _ _ _ (fun p => (map (rmod f) (fst p), snd p))); [apply modules_ren; exact N|]. intros ws4 [ms4 rm4]. reflexivity.
Qed.
Definition same_load (f : string -> string) (file file' : list string) : Prop := load_asm_file file' = rmap (rmod f) (load_asm_file file).
Lemma add_files_ren : forall f files files' a, Forall2 (same_load f) files files' -> add_files (rasm f a) files' = rmap (rasm f) (add_files a files).
Proof.
  intros f files files' a F. revert a. induction F as [|x y files files' R F IH]; intros a; [reflexivity|]. cbn [add_files]. apply (rmap_bind _ _ _ _ (rasm f)); [|intros a1 _; apply IH].
  unfold add_asm_file. apply (rmap_bind _ _ _ _ (rmod f)); [exact R|]. intros m _. cbn [rmap]. f_equal. unfold rasm. cbn. rewrite map_app. reflexivity.
Qed.
Lemma assemble_ren : forall f fuel sk files files', naming f -> Forall2 (same_load f) files files' -> assemble fuel sk files' = wmap (rasm f) (assemble fuel sk files).
Proof.
  intros f fuel sk files files' N F. unfold assemble. apply (wmap_bind _ _ _ _ (rasm f)); [unfold wmap; cbn [fst snd]; f_equal; apply (add_files_ren f files files' empty_assembler F)|].
  intros ws a. apply assembler_ren. exact N.
Qed.
Lemma names_told_ren : forall f ms p, naming f -> assembler_name_for_address (map (rmod f) ms) p = option_map (rename_id f) (assembler_name_for_address ms p).
Proof.
  intros f ms p N. induction ms as [|m ms IH]; [reflexivity|]. cbn [map assembler_name_for_address]. rewrite IH. unfold name_for_address. cbn [rmod md_name md_addr_names]. rewrite (empty_ren f _ N), assoc_z_ren.
  destruct (String.eqb (md_name m) ""); [reflexivity|]. destruct (assoc_z p (md_addr_names m)); reflexivity.
Qed.
Lemma fold_ren : forall A B C (g : A -> B -> A) (h : C -> B) l a, fold_left g (map h l) a = fold_left (fun a x => g a (h x)) l a.
Proof. intros A B C g h l. induction l as [|x l IH]; intros a; [reflexivity|]. cbn [map fold_left]. apply IH. Qed.
Lemma targets_ren : forall f a, jump_targets (rasm f a) = jump_targets a.
Proof. intros f a. unfold jump_targets. cbn [rasm as_mods]. rewrite fold_ren. reflexivity. Qed.
Lemma rets_ren : forall f a, jump_target_return_conventions (rasm f a) = jump_target_return_conventions a.
Proof. intros f a. unfold jump_target_return_conventions. cbn [rasm as_mods]. rewrite fold_ren. reflexivity. Qed.
Lemma loads_free : forall f fuel sk files files', naming f -> Forall2 (same_load f) files files' -> same_results f (assemble fuel sk files) (assemble fuel sk files').
Proof.
  intros f fuel sk files files' N F. rewrite (assemble_ren f fuel sk files files' N F). destruct (assemble fuel sk files) as [ws [a|e|u|]]; split; try reflexivity; cbn [snd wmap rmap fst].
  split; [intros p; reflexivity|]. split; [symmetry; apply targets_ren|]. split; [symmetry; apply rets_ren|]. split; [intros p; apply (names_told_ren f (as_mods a) p N)|].
  intros m n v. rewrite <- (asm_ctx_ren f (as_mods a) (as_names a) N (FullId (Some m) n)). reflexivity.
Qed.
Lemma names_free : forall f fuel sk files files', naming f -> Forall2 (renamed f) files files' -> same_results f (assemble fuel sk files) (assemble fuel sk files').
Proof. intros f fuel sk files files' N F. apply loads_free; [exact N|]. refine (all2_weaken _ _ _ _ _ _ _ F). intros x y R. apply load_ren; assumption. Qed.

(** ** Parsing. *)
Definition rpr {A B} (f : string -> string) (g : A -> B) (p : A * list token) : B * list token := (g (fst p), map (rename_token f) (snd p)).
Definition rparsed (f : string -> string) (p : parsed) : parsed := match p with PLabel n x => PLabel (f n) x | PStmt s => PStmt (rename_statement f s) end.
Lemma punct_ren : forall f p t, is_punct p (rename_token f t) = is_punct p t.
Proof. intros f p []; reflexivity. Qed.
Lemma char_ren : forall f c t, is_char c (rename_token f t) = is_char c t.
Proof. intros f c []; reflexivity. Qed.
Lemma end_ren : forall f t, tok_at_end (rename_token f t) = tok_at_end t.
Proof. intros f []; reflexivity. Qed.
Lemma front_ren : forall f ts, front (map (rename_token f) ts) = rmap (rename_token f) (front ts).
Proof. intros f [|t ts]; reflexivity. Qed.
Lemma tl_ren : forall A B (g : A -> B) l, tl (map g l) = map g (tl l).
Proof. intros A B g []; reflexivity. Qed.
Lemma at_end_ren : forall f ts, at_end (map (rename_token f) ts) = at_end ts.
Proof. intros f [|[] ts]; reflexivity. Qed.
Lemma at_suffix_ren : forall f ts, at_end_or_suffix (map (rename_token f) ts) = at_end_or_suffix ts.
Proof. intros f [|[] ts]; reflexivity. Qed.
Lemma confirm_ren : forall f ts, confirm_at_end (map (rename_token f) ts) = confirm_at_end ts.
Proof. intros. unfold confirm_at_end. rewrite at_end_ren. reflexivity. Qed.
Lemma confirm_suffix_ren : forall f ts, confirm_at_end_or_suffix (map (rename_token f) ts) = confirm_at_end_or_suffix ts.
Proof. intros. unfold confirm_at_end_or_suffix. rewrite at_suffix_ren. reflexivity. Qed.
Lemma register_ren : forall f cs ts, confirm_legal_register cs (map (rename_token f) ts) = confirm_legal_register cs ts.
Proof.
  intros f cs [|t ts]; [reflexivity|]. unfold confirm_legal_register. cbn [map front bind]. replace (is_register (rename_token f t)) with (is_register t) by (destruct t; reflexivity).
  replace (existsb (fun c => is_char c (rename_token f t)) cs) with (existsb (fun c => is_char c t) cs); [reflexivity|]. induction cs as [|c cs IH]; [reflexivity|]. cbn [existsb]. rewrite IH, char_ren. reflexivity.
Qed.
Lemma consume_ren : forall f c ts, consume c (map (rename_token f) ts) = rmap (map (rename_token f)) (consume c ts).
Proof. intros f c [|t ts]; [reflexivity|]. cbn [map consume]. rewrite char_ren. destruct (is_char c t); reflexivity. Qed.
Lemma flags_kept : forall f s, naming f -> keeps_modes f -> flags_from_name (f s) = flags_from_name s.
Proof.
  intros f s N K. destruct (flags_from_name s) eqn:E; [rewrite K; [exact E|congruence]|]. destruct (flags_from_name (f s)) eqn:E'; [|reflexivity].
  exfalso. assert (f (f s) = f s) as X by (apply K; congruence). apply N in X. congruence.
Qed.
Lemma mode_ren : forall f ts, naming f -> keeps_modes f -> p_mode (map (rename_token f) ts) = rmap (rpr f (fun x => x)) (p_mode ts).
Proof. intros f [|[] ts] N K; try reflexivity. cbn [map rename_token p_mode]. rewrite (flags_kept f s N K). destruct (flags_from_name s); reflexivity. Qed.
Lemma ident_ren : forall f long ts, naming f -> p_ident long (map (rename_token f) ts) = option_map (rmap (rpr f (rename_expr f))) (p_ident long ts).
Proof.
  intros f long ts N. destruct ts as [|t ts]; [reflexivity|]. destruct t; try reflexivity.
  - cbn [map rename_token p_ident]. destruct ts as [|t1 ts]; [reflexivity|]. cbn [map]. rewrite punct_ren. destruct (is_punct P_scope t1); [|reflexivity]. destruct ts as [|[] ts]; reflexivity.
  - cbn [map rename_token p_ident]. destruct (is_punct P_scope (TPunct p)); [|reflexivity]. destruct ts as [|[] ts]; try reflexivity. cbn. unfold rpr, rename_id. cbn. unfold rename_id. cbn. rewrite (proj2 N). reflexivity.
Qed.
Lemma addop_ren : forall f t, addop (rename_token f t) = addop t.
Proof. intros f []; reflexivity. Qed.
Lemma mulop_ren : forall f t, mulop (rename_token f t) = mulop t.
Proof. intros f []; reflexivity. Qed.
Lemma unaryop_ren : forall f t, unaryop (rename_token f t) = unaryop t.
Proof. intros f []; reflexivity. Qed.
Ltac res_step L t := rewrite L; destruct t as [[? ?]|?|?|]; cbn [rmap bind rpr fst snd]; [|reflexivity..].
Lemma exprs_ren : forall f fuel, naming f ->
  (forall ts, p_expr fuel (map (rename_token f) ts) = rmap (rpr f (rename_expr f)) (p_expr fuel ts)) /\
  (forall a ts, p_expr_loop fuel (rename_expr f a) (map (rename_token f) ts) = rmap (rpr f (rename_expr f)) (p_expr_loop fuel a ts)) /\
  (forall ts, p_term fuel (map (rename_token f) ts) = rmap (rpr f (rename_expr f)) (p_term fuel ts)) /\
  (forall a ts, p_term_loop fuel (rename_expr f a) (map (rename_token f) ts) = rmap (rpr f (rename_expr f)) (p_term_loop fuel a ts)) /\
  (forall ts, p_factor fuel (map (rename_token f) ts) = rmap (rpr f (rename_expr f)) (p_factor fuel ts)) /\
  (forall ts, p_comp fuel (map (rename_token f) ts) = rmap (rpr f (rename_expr f)) (p_comp fuel ts)).
Proof.
  intros f fuel N. induction fuel as [|fuel (IE & IEL & IT & ITL & IF & IC)]; [repeat split; reflexivity|]. repeat split.
  - intros ts. cbn [p_expr]. res_step IT (p_term fuel ts). apply IEL.
  - intros a ts. cbn [p_expr_loop]. destruct ts as [|t ts]; [reflexivity|]. cbn [map]. rewrite end_ren, addop_ren. destruct (tok_at_end t); [reflexivity|]. destruct (addop t) as [op|]; [|reflexivity].
    res_step IT (p_term fuel ts). apply (IEL (EBin op a e)).
  - intros ts. cbn [p_term]. res_step IF (p_factor fuel ts). apply ITL.
  - intros a ts. cbn [p_term_loop]. destruct ts as [|t ts]; [reflexivity|]. cbn [map]. rewrite end_ren, mulop_ren. destruct (tok_at_end t); [reflexivity|]. destruct (mulop t) as [op|]; [|reflexivity].
    res_step IF (p_factor fuel ts). apply (ITL (EBin op a e)).
  - intros ts. cbn [p_factor]. destruct ts as [|t ts]; [reflexivity|]. cbn [map]. rewrite unaryop_ren. destruct (unaryop t) as [op|]; [|apply (IC (t :: ts))].
    res_step IF (p_factor fuel ts). reflexivity.
  - intros ts. destruct ts as [|t ts]; [reflexivity|].
    assert (G : forall t, (if is_char "@" (rename_token f t) then match p_ident true (map (rename_token f) ts) with Some r => r | None => Err E_parse end
       else match p_ident false (map (rename_token f) (t :: ts)) with Some r => r | None => if is_char "(" (rename_token f t) then
         let* (e, ts1) := p_expr fuel (map (rename_token f) ts) in let* ts2 := consume ")" ts1 in Ok (e, ts2) else Err E_parse end) =
       rmap (rpr f (rename_expr f)) (if is_char "@" t then match p_ident true ts with Some r => r | None => Err E_parse end
       else match p_ident false (t :: ts) with Some r => r | None => if is_char "(" t then
         let* (e, ts1) := p_expr fuel ts in let* ts2 := consume ")" ts1 in Ok (e, ts2) else Err E_parse end)).
    { intros t0. rewrite !char_ren. rewrite (ident_ren f true ts N), (ident_ren f false (t0 :: ts) N). destruct (is_char "@" t0); [destruct (p_ident true ts); reflexivity|].
      destruct (p_ident false (t0 :: ts)); [reflexivity|]. cbn [option_map]. destruct (is_char "(" t0); [|reflexivity]. res_step IE (p_expr fuel ts). rewrite consume_ren.
      destruct (consume ")" l); reflexivity. }
    destruct t; [apply (G (TIdent s))|reflexivity|apply (G (TMnem m))|apply (G (TSuffix s))|apply (G (TDir d))|apply (G (TPunct p))|apply (G TEol)].
Qed.
Lemma expr_ren : forall f ts, naming f -> parse_expr (map (rename_token f) ts) = rmap (rpr f (rename_expr f)) (parse_expr ts).
Proof. intros f ts N. unfold parse_expr. rewrite map_length. apply exprs_ren. exact N. Qed.
Lemma type_ren : forall f e, type_opt (option_map (rename_expr f) e) = type_opt e.
Proof. intros f [e|]; [|reflexivity]. cbn [option_map type_opt]. induction e as [v t|id t|op l IHl r IHr|op a IH|n h IH]; cbn [rename_expr expr_type]; congruence. Qed.
Lemma coerce_ren : forall f a m, coerce_byte (option_map (rename_expr f) a) m = coerce_byte a m /\ coerce_word (option_map (rename_expr f) a) m = coerce_word a m.
Proof. intros. unfold coerce_byte, coerce_word. rewrite type_ren, (eval_opt_ren f _ _ _ (null_ren f)). split; reflexivity. Qed.
Lemma coerces_ren : forall f a b m, coerce_bytes (option_map (rename_expr f) a) (option_map (rename_expr f) b) m = coerce_bytes a b m.
Proof. intros. unfold coerce_bytes. rewrite !(proj1 (coerce_ren f _ m)). reflexivity. Qed.
Lemma switches_ren : forall f a x y z,
  switch_byte_word_long (option_map (rename_expr f) a) x y z = switch_byte_word_long a x y z /\ switch_byte_word (option_map (rename_expr f) a) x y = switch_byte_word a x y /\
  switch_word_long (option_map (rename_expr f) a) x y = switch_word_long a x y /\ force_byte (option_map (rename_expr f) a) x = force_byte a x /\
  force_word (option_map (rename_expr f) a) x = force_word a x /\ force_long (option_map (rename_expr f) a) x = force_long a x.
Proof. intros. unfold switch_byte_word_long, switch_byte_word, switch_word_long, force_byte, force_word, force_long. rewrite type_ren. repeat split. Qed.
Lemma deduce_ren : forall f m s a b, deduce_mode m s (option_map (rename_expr f) a) (option_map (rename_expr f) b) = deduce_mode m s a b.
Proof.
  intros f m s a b. unfold deduce_mode. rewrite type_ren, simple_ren.
  destruct (is_branch_mnemonic m); [destruct s; try reflexivity; destruct (simple_identifier_opt a); reflexivity|]. destruct (argument_is_address s && _); [reflexivity|].
  assert (S3 : forall x y z, switch_byte_word_long (option_map (rename_expr f) a) x y z = switch_byte_word_long a x y z) by (intros; apply switches_ren).
  assert (S2 : forall x y, switch_byte_word (option_map (rename_expr f) a) x y = switch_byte_word a x y) by (intros x y; apply (switches_ren f a x y x)).
  assert (S1 : forall x y, switch_word_long (option_map (rename_expr f) a) x y = switch_word_long a x y) by (intros x y; apply (switches_ren f a x y x)).
  assert (F1 : forall x, force_byte (option_map (rename_expr f) a) x = force_byte a x) by (intros x; apply (switches_ren f a x x x)).
  assert (F2 : forall x, force_word (option_map (rename_expr f) a) x = force_word a x) by (intros x; apply (switches_ren f a x x x)).
  assert (F3 : forall x, force_long (option_map (rename_expr f) a) x = force_long a x) by (intros x; apply (switches_ren f a x x x)).
  destruct s; rewrite ?S3, ?S2, ?S1, ?F1, ?F2, ?F3, ?(fun m => proj1 (coerce_ren f a m)), ?(fun m => proj2 (coerce_ren f a m)), ?coerces_ren; reflexivity.
Qed.
Lemma create_ren : forall f m s sam a b, create_instruction m s sam (option_map (rename_expr f) a) (option_map (rename_expr f) b) = rmap (rinstr f) (create_instruction m s sam a b).
Proof. intros. unfold create_instruction. rewrite deduce_ren. destruct (deduce_mode m sam a b); try reflexivity. cbn [bind]. destruct (_ && _); reflexivity. Qed.
Local Opaque parse_expr consume front at_end at_end_or_suffix confirm_at_end confirm_at_end_or_suffix confirm_legal_register is_char is_punct.
Ltac simp := cbn [rmap bind rpr fst snd].
Ltac ren f N :=
  repeat first
  [ match goal with
    | |- bind (parse_expr (map (rename_token f) ?t)) _ = _ => rewrite (expr_ren f t N); destruct (parse_expr t) as [[? ?]|?|?|]; simp; [|reflexivity..]
    | |- bind (consume ?c (map (rename_token f) ?t)) _ = _ => rewrite (consume_ren f c t); destruct (consume c t); simp; [|reflexivity..]
    | |- bind (front (map (rename_token f) ?t)) _ = _ => rewrite (front_ren f t); destruct (front t); simp; [|reflexivity..]
    | |- bind (at_end_or_suffix (map _ ?t)) _ = _ => rewrite (at_suffix_ren f t); destruct (at_end_or_suffix t); simp; [|reflexivity..]
    | |- bind (confirm_at_end_or_suffix (map _ ?t)) _ = _ => rewrite (confirm_suffix_ren f t); destruct (confirm_at_end_or_suffix t); simp; [|reflexivity..]
    | |- bind (confirm_legal_register ?c (map _ ?t)) _ = _ => rewrite (register_ren f c t); destruct (confirm_legal_register c t); simp; [|reflexivity..]
    | |- (if is_char ?c (rename_token f ?t) then _ else _) = _ => rewrite (char_ren f c t); destruct (is_char c t)
    | |- (if ?b then _ else _) = _ => destruct b
    | |- context [tl (map (rename_token f) ?t)] => rewrite (tl_ren _ _ (rename_token f) t)
    end ].
Lemma fin_ren : forall f m s sam a b ts a' b', a' = option_map (rename_expr f) a -> b' = option_map (rename_expr f) b ->
  (let* i := create_instruction m s sam a' b' in Ok (i, map (rename_token f) ts)) = rmap (rpr f (rinstr f)) (let* i := create_instruction m s sam a b in Ok (i, ts)).
Proof. intros f m s sam a b ts a' b' -> ->. rewrite create_ren. destruct (create_instruction m s sam a b); reflexivity. Qed.
Local Opaque create_instruction.
Ltac fin := apply fin_ren; reflexivity.
Lemma bare_ren : forall f m s ts, naming f -> p_bare m s (map (rename_token f) ts) = rmap (rpr f (rinstr f)) (p_bare m s ts).
Proof. intros f m s ts N. unfold p_bare. cbv zeta. ren f N; fin. Qed.
Local Opaque p_bare.
Lemma core_ren : forall f ts, naming f -> parse_instruction_core (map (rename_token f) ts) = rmap (rpr f (rinstr f)) (parse_instruction_core ts).
Proof.
  intros f ts N. unfold parse_instruction_core. destruct ts as [|[] ts]; try reflexivity. cbn [map rename_token]. cbv zeta. rewrite front_ren. destruct (front ts) as [t|?|?|] eqn:FR; try reflexivity. cbn [rmap bind].
  assert (X : (match rename_token f t with TSuffix s => (s, tl (map (rename_token f) ts)) | _ => (S_none, map (rename_token f) ts) end) =
    (let '(s, u) := match t with TSuffix s => (s, tl ts) | _ => (S_none, ts) end in (s, map (rename_token f) u))) by (destruct t; cbn [rename_token]; rewrite ?tl_ren; reflexivity).
  rewrite X. destruct (match t with TSuffix s => (s, tl ts) | _ => (S_none, ts) end) as [s u]. ren f N; first [apply bare_ren; exact N|fin].
Qed.
Local Opaque parse_instruction_core.
Lemma return_ren : forall f ts, naming f -> keeps_modes f -> parse_return_convention (map (rename_token f) ts) = rmap (rpr f (fun x => x)) (parse_return_convention ts).
Proof.
  intros f ts N K. unfold parse_return_convention. rewrite front_ren. destruct (front ts) as [t|?|?|]; try reflexivity. cbn [rmap bind]. rewrite !punct_ren. destruct (is_punct P_noreturn t); [rewrite tl_ren; reflexivity|].
  destruct (is_punct P_yields t); [|reflexivity]. rewrite tl_ren. res_step (mode_ren f (tl ts) N K) (p_mode (tl ts)). reflexivity.
Qed.
Lemma instruction_ren : forall f ts, naming f -> keeps_modes f -> parse_instruction (map (rename_token f) ts) = rmap (rpr f (rinstr f)) (parse_instruction ts).
Proof.
  intros f ts N K. unfold parse_instruction. res_step (core_ren f ts N) (parse_instruction_core ts). res_step (return_ren f l N K) (parse_return_convention l). destruct (_ && _); reflexivity.
Qed.
Lemma list_ren : forall f fuel acc ts, naming f -> p_list fuel (map (rename_expr f) acc) (map (rename_token f) ts) = rmap (rpr f (map (rename_expr f))) (p_list fuel acc ts).
Proof.
  intros f fuel acc ts N. revert acc ts. induction fuel as [|fuel IH]; intros acc ts; [reflexivity|]. cbn [p_list]. res_step (expr_ren f ts N) (parse_expr ts). rewrite at_end_ren. destruct (at_end l) as [[|]|?|?|]; cbn [bind rmap]; try reflexivity.
  - unfold rpr. cbn. rewrite map_app. reflexivity.
  - rewrite consume_ren. destruct (consume "," l) as [l1|?|?|]; cbn [bind rmap]; try reflexivity. rewrite <- IH, map_app. reflexivity.
Qed.
Lemma requires_ren : forall f e, requires_lookup (rename_expr f e) = requires_lookup e.
Proof. intros f e. induction e as [v t|id t|op l IHl r IHr|op a IH|n h IH]; cbn [rename_expr requires_lookup]; congruence. Qed.
Lemma simple_expr_ren : forall f e, simple_identifier (rename_expr f e) = option_map f (simple_identifier e).
Proof. intros f e. exact (simple_ren f (Some e)). Qed.
Definition rdir (f : string -> string) (d : directive) : directive :=
  Directive (d_name d) (option_map (rename_expr f) (d_arg d)) (d_flags d) (d_ret d) (map (rename_expr f) (d_list d)).
Lemma directive_parse_ren : forall f ts, naming f -> keeps_modes f -> parse_directive (map (rename_token f) ts) = rmap (rpr f (rdir f)) (parse_directive ts).
Proof.
  intros f ts N K. unfold parse_directive. destruct ts as [|[] ts]; try reflexivity. cbn [map rename_token]. cbv zeta.
  assert (M : forall arg u, (let* (fl, ts) := p_mode (map (rename_token f) u) in
        let* _ := match directive_type_by_name d with DT_flag_arg => confirm_at_end ts | _ => Ok tt end in
        let* (rc, ts) := parse_return_convention ts in
        let* _ := confirm_at_end ts in Ok (Directive d (option_map (rename_expr f) arg) fl rc [], ts)) =
      rmap (rpr f (rdir f)) (let* (fl, ts) := p_mode u in
        let* _ := match directive_type_by_name d with DT_flag_arg => confirm_at_end ts | _ => Ok tt end in
        let* (rc, ts) := parse_return_convention ts in
        let* _ := confirm_at_end ts in Ok (Directive d arg fl rc [], ts))).
  { intros arg u. res_step (mode_ren f u N K) (p_mode u). rewrite confirm_ren. destruct (match directive_type_by_name d with DT_flag_arg => confirm_at_end l | _ => Ok tt end); cbn [bind rmap]; try reflexivity.
    res_step (return_ren f l N K) (parse_return_convention l). rewrite confirm_ren. destruct (confirm_at_end l0); reflexivity. }
  destruct (directive_type_by_name d) eqn:DT.
  1: { rewrite confirm_ren. destruct (confirm_at_end ts); reflexivity. }
  all: try exact (M None ts).
  all: try (res_step (expr_ren f ts N) (parse_expr ts); rewrite ?requires_ren, ?simple_expr_ren; try (destruct (requires_lookup e); [reflexivity|]); try (destruct (simple_identifier e); [|reflexivity]; cbn [option_map]);
    first [exact (M (Some e) l)|rewrite confirm_ren; destruct (confirm_at_end l); reflexivity]).
  rewrite map_length. change [] with (map (rename_expr f) []) at 1. rewrite (list_ren f _ [] ts N). destruct (p_list _ [] ts) as [[l u]|?|?|]; reflexivity.
Qed.
Definition rlab (f : string -> string) (x : list parsed * list token * bool) : list parsed * list token * bool :=
  let '(l, ts, b) := x in (map (rparsed f) l, map (rename_token f) ts, b).
Lemma label_parse_ren : forall f ts, p_label (map (rename_token f) ts) = rmap (rlab f) (p_label ts).
Proof.
  intros f ts. unfold p_label. rewrite front_ren. destruct (front ts) as [t|?|?|]; try reflexivity. cbn [rmap bind]. rewrite punct_ren.
  assert (T : forall b u, match map (rename_token f) u with TIdent s :: ts' => match ts' with t' :: ts'' => if is_char ":" t' then Ok ([PLabel s b], ts'', true) else Ok ([PLabel s b], ts', false)
      | [] => Ok ([PLabel s b], ts', false) end | _ => Ok ([], map (rename_token f) u, false) end =
    rmap (rlab f) match u with TIdent s :: ts' => match ts' with t' :: ts'' => if is_char ":" t' then Ok ([PLabel s b], ts'', true) else Ok ([PLabel s b], ts', false)
      | [] => Ok ([PLabel s b], ts', false) end | _ => Ok ([], u, false) end).
  { intros b [|[] u]; try reflexivity. cbn [map rename_token]. destruct u as [|t' u]; [reflexivity|]. cbn [map]. rewrite char_ren. destruct (is_char ":" t'); reflexivity. }
  destruct (is_punct P_export t); [|apply (T false ts)]. rewrite tl_ren, front_ren. destruct (front (tl ts)) as [t'|?|?|]; try reflexivity. cbn [rmap bind].
  destruct t'; cbn [rename_token tok_ident bind]; try reflexivity. apply (T true (tl ts)).
Qed.
Lemma parse_loop_ren : forall f fuel acc ts, naming f -> keeps_modes f -> parse_loop fuel (map (rparsed f) acc) (map (rename_token f) ts) = rmap (map (rparsed f)) (parse_loop fuel acc ts).
Proof.
  intros f fuel acc ts N K. revert acc ts. induction fuel as [|fuel IH]; intros acc ts; [reflexivity|]. cbn [parse_loop]. destruct ts as [|t0 ts0]; [reflexivity|].
  change (map (rename_token f) (t0 :: ts0)) with (rename_token f t0 :: map (rename_token f) ts0) at 1. cbv iota. rewrite (label_parse_ren f (t0 :: ts0)).
  destruct (p_label (t0 :: ts0)) as [[[lab ts] cont]|?|?|]; try reflexivity. cbn [rmap bind rlab]. rewrite <- map_app. destruct cont; [apply IH|]. rewrite front_ren. destruct (front ts) as [t|?|?|]; try reflexivity. cbn [rmap bind].
  rewrite end_ren, !char_ren. destruct (tok_at_end t); [reflexivity|].
  assert (PUT : forall s u, parse_loop fuel (map (rparsed f) (acc ++ lab) ++ [PStmt (rename_statement f s)]) (map (rename_token f) u) = rmap (map (rparsed f)) (parse_loop fuel ((acc ++ lab) ++ [PStmt s]) u)).
  { intros s u. rewrite <- IH, (map_app _ (acc ++ lab)). reflexivity. }
  destruct (is_char "{" t || is_char "}" t). { rewrite tl_ren. apply (PUT (SDir (Directive (if is_char "{" t then D_begin else D_end) None default_flags RC_default []))). }
  replace (tok_dir (rename_token f t)) with (tok_dir t) by (destruct t; reflexivity). replace (tok_mnem (rename_token f t)) with (tok_mnem t) by (destruct t; reflexivity).
  destruct (tok_dir t).
  - res_step (directive_parse_ren f ts N K) (parse_directive ts). rewrite at_end_ren, tl_ren. destruct (at_end l) as [[|]|?|?|]; cbn [bind rmap]; try reflexivity. apply (PUT (SDir d0)).
  - destruct (tok_mnem t); [|reflexivity]. res_step (instruction_ren f ts N K) (parse_instruction ts). rewrite at_end_ren, tl_ren. destruct (at_end l) as [[|]|?|?|]; cbn [bind rmap]; try reflexivity. apply (PUT (SInstr i)).
Qed.
Lemma parse_ren : forall f ts, naming f -> keeps_modes f -> parse (map (rename_token f) ts) = rmap (map (rparsed f)) (parse ts).
Proof. intros f ts N K. unfold parse. rewrite map_length. apply (parse_loop_ren f _ [] ts N K). Qed.
Lemma entity_ren : forall f ld e, naming f -> load_entity (rloaded f ld) (rparsed f e) = rmap (rloaded f) (load_entity ld e).
Proof.
  intros f [m p sc] [n x|s] N; cbn [rparsed load_entity rloaded ld_mod ld_pending ld_scopes]; [cbn [rmap]; unfold rloaded; cbn; rewrite map_app; reflexivity|]. apply (load_one_ren f m sc p s N).
Qed.
Lemma entities_ren : forall f es ld, naming f -> load_entities (rloaded f ld) (map (rparsed f) es) = rmap (rloaded f) (load_entities ld es).
Proof.
  intros f es ld N. revert ld. induction es as [|e es IH]; intros ld; [reflexivity|]. cbn [map load_entities]. apply (rmap_bind _ _ _ _ (rloaded f)); [apply entity_ren; exact N|]. intros ld1 _. apply IH.
Qed.
Lemma lines_ren : forall f file file' ld, naming f -> keeps_modes f -> rewritten f file file' -> load_lines (rloaded f ld) file' = rmap (rloaded f) (load_lines ld file).
Proof.
  intros f file file' ld N K R. revert ld. induction R as [|l l' file file' H R IH]; intros ld; [reflexivity|]. cbn [load_lines]. destruct H as [(ts & -> & ->)|(e & -> & ->)]; [|reflexivity]. cbn [bind].
  rewrite (parse_ren f ts N K). destruct (parse ts) as [es|?|?|]; cbn [rmap bind]; try reflexivity. rewrite (entities_ren f es ld N). destruct (load_entities ld es); cbn [rmap bind]; try reflexivity. apply IH.
Qed.
Lemma text_free : forall f fuel sk files files', naming f -> keeps_modes f -> Forall2 (rewritten f) files files' -> same_results f (assemble fuel sk files) (assemble fuel sk files').
Proof.
  intros f fuel sk files files' N K F. apply loads_free; [exact N|]. refine (all2_weaken _ _ _ _ _ _ _ F). intros x y R. unfold same_load, load_asm_file.
  apply (rmap_bind _ _ _ _ (rloaded f)); [rewrite <- (lines_ren f x y (Loader empty_module [] []) N K R); f_equal; unfold rloaded, rmod, empty_module; cbn; rewrite (proj2 N); reflexivity|].
  intros [m p sc] _. cbn [rloaded ld_scopes ld_mod]. destruct sc; [|reflexivity]. cbn [rmap]. rewrite (deps_ren f m N). reflexivity.
Qed.
Lemma bind_twice : forall A B C (x : res A) (g : A -> res B) (h : B -> res C), bind (bind x g) h = bind x (fun a => bind (g a) h).
Proof. intros A B C [a|e|u|] g h; reflexivity. Qed.
Lemma layout_free : forall fuel sk files files', Forall2 (fun x y => exists src, reads x src /\ reads y src) files files' -> assemble fuel sk files = assemble fuel sk files'.
Proof.
  intros fuel sk files files' F. unfold assemble. f_equal. f_equal. generalize empty_assembler. induction F as [|x y files files' (src & R & R') F IH]; intros a; [reflexivity|]. cbn [add_files]. unfold add_asm_file.
  rewrite (load_reads _ _ R), (load_reads _ _ R'). rewrite !bind_twice.
  destruct (load_source empty_module [] src) as [[m sc]|?|?|]; cbn [bind]; try reflexivity. destruct sc; cbn [bind]; [apply IH|reflexivity].
Qed.
(** Two names exchanged. *)
Definition swap (a b s : string) : string := if String.eqb s a then b else if String.eqb s b then a else s.
Lemma swap_naming : forall a b, a <> "" -> b <> "" -> naming (swap a b).
Proof.
  intros a b A B. split.
  - intros s t. unfold swap. destruct (String.eqb_spec s a), (String.eqb_spec t a), (String.eqb_spec s b), (String.eqb_spec t b); congruence.
  - unfold swap. destruct (String.eqb_spec "" a), (String.eqb_spec "" b); congruence.
Qed.
Lemma swap_modes : forall a b, flags_from_name a = None -> flags_from_name b = None -> keeps_modes (swap a b).
Proof. intros a b A B s H. unfold swap. destruct (String.eqb_spec s a), (String.eqb_spec s b); congruence. Qed.
Lemma line_rewritten : forall f l l', match tokenize l with Ok ts => tokenize l' = Ok (map (rename_token f) ts) | _ => False end ->
  (exists ts, tokenize l = Ok ts /\ tokenize l' = Ok (map (rename_token f) ts)) \/ exists e, tokenize l = Err e /\ tokenize l' = Err e.
Proof. intros f l l' H. left. destruct (tokenize l) as [ts|?|?|]; [eauto|destruct H..]. Qed.

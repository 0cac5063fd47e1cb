(** Proofs: where errors are reported. *)
From Verif Require Import Base BaseProofs ModelNumeric ModelAddress ModelMnemonic ModelExpr ModelAMode
  ModelOpcode ModelState ModelInstr ModelToken ModelStatement ModelParse ModelMap ModelRanges
  ModelModule ModelAssembler ModelLocation SpecArith Spec65816 SpecScope SpecInstr SpecLayout SpecAssemble SpecState SpecText SpecShow SpecRanges SpecLocation
  NameProofs InstrProofs MapProofs OrderProofs LoadProofs ScopeProofs PassProofs ModeProofs LayoutProofs RangesProofs AssembleProofs ProgramProofs ShowProofs LocationProofs QuietProofs.
Open Scope list_scope.
Open Scope Z_scope.
Local Opaque decode_opcode deduce_mode flag_controlling_size tokenize parse execute execute_branch
  fix_addressing_mode stmt_execute stmt_bytes eval_opt.

(** ** Locations. *)
Lemma update_no : forall l, loc_update no_location l = l.
Proof. intros [p o]. unfold loc_update. cbn. destruct (String.eqb_spec p ""); [subst|]; destruct o; reflexivity. Qed.
Lemma at_err : forall A l (r : res A) e l0, at_loc l r = LErr e l0 -> r = Err e /\ l0 = l.
Proof. intros A l [a|e'|u|] e l0 H; cbn in H; try discriminate H. rewrite update_no in H. injection H as -> ->. auto. Qed.
Lemma at_ok : forall A l (r : res A) a, at_loc l r = LOk a -> r = Ok a.
Proof. intros A l [a'|e'|u|] a H; cbn in H; try discriminate H. congruence. Qed.
Lemma bare_err : forall A (r : res A) e l0, bare r = LErr e l0 -> r = Err e /\ l0 = no_location.
Proof. intros A [a|e'|u|] e l0 H; cbn in H; try discriminate H. injection H as -> ->. auto. Qed.
Lemma bare_ok : forall A (r : res A) a, bare r = LOk a -> r = Ok a.
Proof. intros A [a'|e'|u|] a H; cbn in H; try discriminate H. congruence. Qed.
Lemma lbind_err : forall A B (r : lres A) (k : A -> lres B) e l, lbind r k = LErr e l ->
  r = LErr e l \/ exists a, r = LOk a /\ k a = LErr e l.
Proof. intros A B [a|e' l'|u|] k e l H; cbn in H; try discriminate H; [right; eauto|left; congruence]. Qed.
Lemma lbind_ok : forall A B (r : lres A) (k : A -> lres B) b, lbind r k = LOk b -> exists a, r = LOk a /\ k a = LOk b.
Proof. intros A B [a|e' l'|u|] k b H; cbn in H; try discriminate H; eauto. Qed.
Lemma update_line : forall path o n, loc_update (Loc path o) (Loc "" (AtLine n)) = line_of path n.
Proof. reflexivity. Qed.

(** ** Loading. *)
Fixpoint nst (es : list parsed) : Z :=
  match es with [] => 0 | PStmt _ :: es' => 1 + nst es' | PLabel _ _ :: es' => nst es' end.
Lemma nst_count : forall es p, zlen (statements p es) = nst es.
Proof. induction es as [|[n x|s] es IH]; intros p; cbn [statements nst]; [reflexivity|apply IH|]. rewrite zlen_cons, IH. reflexivity. Qed.
Lemma count_nst : forall es, count es = nst es.
Proof. intros. apply nst_count. Qed.
Lemma nst_app : forall a b, nst (a ++ b) = nst a + nst b.
Proof. induction a as [|[n x|s] a IH]; intros b; cbn [app nst]; rewrite ?IH; lia. Qed.
Lemma nst_nonneg : forall a, 0 <= nst a.
Proof. induction a as [|[n x|s] a IH]; cbn [nst]; lia. Qed.

Lemma entities_loc : forall l es ld locs,
  match lload_entities l ld locs es with
  | LOk (ld', locs') => exists add, locs' = locs ++ add /\ zlen add = nst es /\ Forall (eq l) add
  | LErr e l0 => l0 = l
  | _ => True
  end.
Proof.
  intros l es. induction es as [|e es IH]; intros ld locs; cbn [lload_entities].
  - exists []. rewrite app_nil_r. repeat split; constructor.
  - destruct (at_loc l (load_entity ld e)) as [ld1|x l0|u|] eqn:A; cbn [lbind]; try exact Logic.I.
    2: { apply at_err in A. apply A. }
    destruct e as [n x|s]; [apply IH|]. specialize (IH ld1 (locs ++ [l])).
    destruct (lload_entities l ld1 (locs ++ [l]) es) as [[ld' locs']|x l0|u|]; try exact IH.
    destruct IH as (add & -> & L & F). exists (l :: add). rewrite <- app_assoc. repeat split; [|constructor; auto].
    cbn [nst]. rewrite zlen_cons, L. reflexivity.
Qed.

Lemma load_lines_app : forall a b ld, load_lines ld (a ++ b) = let* ld := load_lines ld a in load_lines ld b.
Proof.
  induction a as [|s a IH]; intros b ld; cbn [app load_lines]; [reflexivity|].
  destruct (tokenize s) as [ts|e|u|]; try reflexivity. cbn [bind]. destruct (parse ts) as [es|e|u|]; try reflexivity. cbn [bind].
  destruct (load_entities ld es) as [ld'|e|u|]; try reflexivity. cbn [bind]. apply IH.
Qed.
Definition start : loader := Loader empty_module [] [].
Lemma load_fails : forall file e, load_lines start file = Err e -> load_asm_file file = Err e.
Proof. intros file e H. unfold load_asm_file. fold start. rewrite H. reflexivity. Qed.

Definition locs_good (path : string) (file : list string) (locs : list location) (n : Z) : Prop :=
  zlen locs = n /\ forall k, 0 <= k < n -> exists ln, znth locs k = Some (line_of path ln) /\ stands file k ln.

Definition bad_line (path : string) (file : list string) (e : err) (l : location) : Prop :=
  exists n text, first_bad file n text e /\
    (l = line_of path n \/ l = no_location /\ has_convention text /\ In e [E_convention; E_logic]).

Lemma lines_loc : forall path file rest done ess ld locs o,
  file = done ++ rest -> Forall2 contains done ess -> load_lines start done = Ok ld ->
  locs_good path file locs (nst (concat ess)) ->
  match lload_lines (Loc path o) (zlen done) ld locs rest with
  | LOk (ld', locs') => load_lines start file = Ok ld' /\
      exists ess', Forall2 contains file ess' /\ locs_good path file locs' (nst (concat ess'))
  | LErr e l => bad_line path file e l
  | _ => True
  end.
Proof.
  intros path file. induction rest as [|text rest IH]; intros done ess ld locs o E R L G; cbn [lload_lines].
  - rewrite app_nil_r in E. subst done. split; [exact L|]. exists ess. auto.
  - rewrite update_line.
    assert (FB : forall e, (let* ts := tokenize text in let* es := parse ts in load_entities ld es) = Err e ->
              first_bad file (zlen done + 1) text e).
    { intros e H. exists done, rest. split; [exact E|]. split; [reflexivity|]. split; [exists ld; exact L|]. intros after'.
      apply load_fails. rewrite load_lines_app, L. cbn [bind load_lines].
      destruct (tokenize text) as [ts|x|u|]; try discriminate H; cbn [bind] in *; [|exact H].
      destruct (parse ts) as [es|x|u|]; try discriminate H; cbn [bind] in *; [|exact H]. rewrite H. reflexivity. }
    destruct (at_loc (line_of path (zlen done + 1)) (tokenize text)) as [ts|e l|u|] eqn:T; cbn [lbind]; try exact Logic.I.
    2: { apply at_err in T. destruct T as [T ->]. exists (zlen done + 1), text. split; [|left; reflexivity]. apply FB. rewrite T. reflexivity. }
    apply at_ok in T. rewrite T in FB. cbn [bind] in FB.
    destruct (parse_located (line_of path (zlen done + 1)) ts) as [es|e l|u|] eqn:P; cbn [lbind]; try exact Logic.I.
    2: { exists (zlen done + 1), text. unfold parse_located in P.
         assert (B : forall x, parse ts = Err x -> first_bad file (zlen done + 1) text x) by (intros x H; apply FB; rewrite H; reflexivity).
         assert (C : forall x, parse ts = Err x -> ~ soft x -> has_convention text).
         { intros x H N. destruct (parse_loud _ _ H N) as (p & I1 & I2). exists ts, p. auto. }
         assert (AT : at_loc (line_of path (zlen done + 1)) (parse ts) = LErr e l -> first_bad file (zlen done + 1) text e /\ l = line_of path (zlen done + 1)).
         { intros A. apply at_err in A. destruct A as [A ->]. auto. }
         destruct (parse ts) as [es|x|u|] eqn:PT; try (destruct (AT P); auto; fail).
         destruct x; try (destruct (AT P); auto; fail).
         all: injection P as <- <-; split; [auto|]; right; split; [reflexivity|]; split; [|cbn; auto]; eapply C; [reflexivity|]; intros [S1 S2]; congruence. }
    assert (P' : parse ts = Ok es).
    { unfold parse_located in P. destruct (parse ts) as [es'|x|u|]; try (apply at_ok in P; congruence). destruct x; try (apply at_ok in P; congruence); discriminate P. }
    clear P. rewrite P' in FB. cbn [bind] in FB.
    pose proof (entities_loc (line_of path (zlen done + 1)) es ld locs) as EL.
    pose proof (e_entities (line_of path (zlen done + 1)) es ld locs) as EE.
    destruct (lload_entities _ ld locs es) as [[ld1 locs1]|e l|u|]; cbn [lbind erase bind fst] in *; try exact Logic.I.
    2: { subst l. exists (zlen done + 1), text. split; [|left; reflexivity]. apply FB. symmetry. exact EE. }
    destruct EL as (add & -> & AL & AF).
    assert (CT : contains text es) by (exists ts; auto).
    specialize (IH (done ++ [text]) (ess ++ [es]) ld1 (locs ++ add) (AtLine (zlen done + 1))).
    rewrite zlen_app, zlen_cons, zlen_nil, Z.add_0_r in IH. apply IH; clear IH.
    + rewrite <- app_assoc. exact E.
    + apply Forall2_app; [exact R|]. constructor; [exact CT|constructor].
    + rewrite load_lines_app, L. cbn [bind load_lines]. rewrite T. cbn [bind]. rewrite P'. cbn [bind]. rewrite <- EE. reflexivity.
    + rewrite concat_app, nst_app. cbn [concat]. rewrite app_nil_r. destruct G as [G1 G2]. split; [rewrite zlen_app; lia|].
      intros k K. destruct (Z.ltb_spec k (nst (concat ess))) as [Q|Q].
      * destruct (G2 k ltac:(lia)) as (ln & Z1 & Z2). exists ln. split; [|exact Z2]. rewrite znth_app1 by lia. exact Z1.
      * exists (zlen done + 1). split.
        -- rewrite znth_app2 by lia. destruct (znth_in_range _ add (k - zlen locs)) as [x X]; [lia|]. rewrite X. f_equal.
           apply znth_in in X. rewrite Forall_forall in AF. symmetry. apply AF. exact X.
        -- exists done, text, rest, ess, es. split; [exact E|]. split; [reflexivity|]. split; [exact R|]. split; [exact CT|].
           rewrite !count_nst, nst_app. lia.
Qed.

Definition based (path : string) (file : list string) (src : source) (lm : lmodule) : Prop :=
  lm_path lm = path /\ reads file src /\ locs_good path file (lm_locs lm) (zlen src) /\
  exists m0, load_asm_file file = Ok m0 /\ same_scopes m0 (lm_mod lm).

Inductive bad_load (path : string) (file : list string) (e : err) (l : location) : Prop :=
| bl_line : bad_line path file e l -> bad_load path file e l
| bl_open : forall src b n, e = E_scope -> reads file src -> open_at (map snd src) b ->
    (forall b', open_at (map snd src) b' -> b' <= b) -> stands file b n -> l = line_of path n -> bad_load path file e l.

Lemma load_loc : forall path file,
  match lload_asm_file path file with
  | LOk lm => lm_path lm = path /\ load_asm_file file = Ok (lm_mod lm) /\
      exists src, reads file src /\ locs_good path file (lm_locs lm) (zlen src)
  | LErr e l => bad_load path file e l
  | _ => True
  end.
Proof.
  intros path file. pose proof (e_load path file) as EL. unfold lload_asm_file in *. fold start in *.
  pose proof (lines_loc path file file [] [] start [] NoOffset eq_refl (Forall2_nil _) eq_refl) as LL.
  assert (G0 : locs_good path file [] (nst (concat []))) by (split; [reflexivity|intros k K; cbn in K; lia]).
  specialize (LL G0). rewrite zlen_nil in LL.
  destruct (lload_lines (Loc path NoOffset) 0 start [] file) as [[ld locs]|e l|u|]; cbn [lbind]; try exact Logic.I.
  2: { apply bl_line. exact LL. }
  destruct LL as (L & ess & R & G). cbn [lbind] in EL.
  pose proof (load_entities_spec (concat ess) "" [] [] fine_empty) as SP.
  rewrite <- (load_lines_eq _ _ R) in SP. change (loaded "" [] []) with start in SP. rewrite L in SP.
  destruct SP as (name & pending & -> & F). cbn [app] in *. set (src := statements [] (concat ess)) in *.
  assert (RD : reads file src) by (exists ess; split; [exact R|reflexivity]).
  cbn [loaded ld_scopes ld_mod] in *. rewrite <- (nst_count (concat ess) []) in G. fold src in G.
  destruct (stack (map snd src)) as [|b sc] eqn:ST.
  - cbn [lm_path lm_mod lm_locs erase bind] in *. split; [reflexivity|]. split; [symmetry; exact EL|]. exists src. split; [exact RD|exact G].
  - destruct (stack_top _ _ _ ST) as [OP MX]. pose proof (stack_decreasing (map snd src)) as D. rewrite ST in D. cbn in D.
    destruct D as [D _]. rewrite zlen_map in D. destruct (proj2 G b D) as (n & Z1 & Z2).
    unfold loc_at. rewrite Z1. destruct (at_loc (line_of path n) (Err E_scope)) as [x|e l|u|] eqn:A; try exact Logic.I.
    + apply at_ok in A. discriminate A.
    + apply at_err in A. destruct A as [A ->]. eapply bl_open; [congruence|exact RD|exact OP|exact MX|exact Z2|reflexivity].
Qed.

(** ** Blaming a statement. *)
Definition placed (sk : lsink) (ws : list write) (path : string) (file : list string) (src : source) (e : err) (l : location) : Prop :=
  exists k n, l = line_of path n /\ stands file k n /\ blamed sk ws src k e.
Definition bad_pass (sk : lsink) (ws : list write) (path : string) (file : list string) (src : source) (e : err) (l : location) : Prop :=
  placed sk ws path file src e l \/
  (e = E_past_end /\ l = no_location /\ exists before labels s, src = before ++ [(labels, s)] /\ stmt_is_exit s = false).

Lemma place : forall sk ws path file src locs k e, locs_good path file locs (zlen src) -> blamed sk ws src k e ->
  placed sk ws path file src e (loc_at locs k).
Proof.
  intros sk ws path file src locs k e [G1 G2] B.
  assert (K : 0 <= k < zlen src).
  { destruct B as (before & labels & s & after & s' & -> & -> & _). rewrite zlen_app, zlen_cons. unfold zlen. lia. }
  destruct (G2 k K) as (n & Z1 & Z2). exists k, n. unfold loc_at. rewrite Z1. auto.
Qed.
Lemma split_at : forall (src : source) k s, znth (map snd src) k = Some s ->
  exists before labels after, src = before ++ (labels, s) :: after /\ k = zlen before.
Proof.
  intros src k s H. rewrite MapProofs.znth_map in H. destruct (znth src k) as [[labels s']|] eqn:E; [|discriminate H].
  injection H as ->. destruct (znth_split _ _ _ _ E) as (before & after & -> & <-). eauto.
Qed.
Lemma null_looks_up : looks_up null_ctx.
Proof. intros id e H. injection H as <-. cbn. auto. Qed.
Lemma local_looks_up : forall m i e, local_lookup m i = Err e -> e = E_before_def.
Proof. intros m i e H. unfold local_lookup in H. destruct (znth _ i) as [l|]; [|discriminate]. destruct (ln_value l); [discriminate|]. injection H as <-. reflexivity. Qed.
Lemma module_looks_up : forall m sc ext, looks_up ext -> looks_up (module_ctx m sc ext).
Proof.
  intros m sc ext L id e H. unfold module_ctx in H. destruct (fi_module id) as [mn|].
  - destruct (String.eqb mn (md_name m)); [|exact (L _ _ H)]. destruct (local_index m (fi_name id) []); try exact (L _ _ H). apply local_looks_up in H. subst. cbn. auto.
  - destruct (local_index m (fi_name id) sc); try exact (L _ _ H). apply local_looks_up in H. subst. cbn. auto.
Qed.
Lemma assembler_looks_up : forall ms names, looks_up (assembler_ctx ms names).
Proof.
  intros ms names id e H. unfold assembler_ctx in H. destruct (negb _); [injection H as <-; cbn; auto|]. destruct (assoc_id id names) as [i|]; [|injection H as <-; cbn; auto].
  destruct (znth ms i) as [m|]; [|discriminate]. unfold value_for_name in H. destruct (fi_module id); [|injection H as <-; cbn; auto]. destruct (String.eqb _ _); [|injection H as <-; cbn; auto].
  destruct (assoc_string _ _) as [k|]; [|injection H as <-; cbn; auto]. destruct (znth _ k) as [l|]; [|discriminate]. destruct (ln_value l); [discriminate|injection H as <-; cbn; auto 6].
Qed.
Lemma blame_fails : forall sk ws src k s s' e, znth (map snd src) k = Some s -> widened s s' -> fails s' e -> blamed sk ws src k e.
Proof.
  intros sk ws src k s s' e H W F. destruct (split_at _ _ _ H) as (before & labels & after & -> & ->).
  exists before, labels, s, after, s'. split; [reflexivity|]. split; [reflexivity|]. split; [exact W|]. left. exact F.
Qed.

(** ** The first pass. *)
Lemma reads_entity : forall file src s, reads file src -> In s (map snd src) -> entity_ok (PStmt s).
Proof.
  intros file src s (ess & F & ->) I. apply in_map_iff in I. destruct I as ([labels s'] & E & I). cbn in E. subst s'.
  apply statements_in in I. apply in_concat in I. destruct I as (es & I & J).
  clear -F I J. induction F as [|line es' file ess (ts & T & P) F IH]; [destruct I|].
  destruct I as [->|I]; [|auto]. assert (R : read_as line es) by (exists ts; auto). apply line_parsed in R.
  rewrite Forall_forall in R. auto.
Qed.
Lemma rel_branch : forall op m, 0 <= op < 256 -> op_name op = mnem_to_string (hardware_mnemonic m) ->
  op_form op = Rel8 \/ op_form op = Rel16 -> is_branch_mnemonic m = true.
Proof.
  assert (T : forallb (fun op => match op_form op with
     | Rel8 | Rel16 => forallb (fun m => implb (String.eqb (op_name op) (mnem_to_string (hardware_mnemonic m))) (is_branch_mnemonic m)) all_mnemonics
     | _ => true end) all_opcodes = true) by (vm_compute; reflexivity).
  intros op m R N F. pose proof (forall_opcodes _ T op R) as Q. cbv beta in Q. clear T.
  assert (Q' : forallb (fun m => implb (String.eqb (op_name op) (mnem_to_string (hardware_mnemonic m))) (is_branch_mnemonic m)) all_mnemonics = true)
    by (destruct F as [F|F]; rewrite F in Q; exact Q). clear Q.
  pose proof (forall_mnemonics _ Q' m) as P. cbv beta in P. clear Q'. rewrite N, String.eqb_refl in P. exact P.
Qed.
Lemma local_branch_named : forall i, instr_ok i -> is_local_branch i = true ->
  relative_branch (i_mnem i) /\ exists n ty, i_arg1 i = Some (EId (FullId None n) ty).
Proof.
  intros i (((s & D & _) & _) & _) B. unfold is_local_branch in B. apply andb_prop in B. destruct B as [B1 B2].
  apply deduce_exact in D. destruct D as ((op & R & N & F) & _ & O).
  assert (M : i_mode i = A_rel8 \/ i_mode i = A_rel16) by (clear -B1; destruct (i_mode i); try discriminate B1; auto).
  assert (OP : exists n ty, i_arg1 i = Some (EId (FullId None n) ty)) by (destruct M as [M|M]; rewrite M in O; exact O).
  split; [|exact OP]. assert (IB : is_branch_mnemonic (i_mnem i) = true).
  { eapply rel_branch; [exact R|exact N|]. destruct M as [M|M]; rewrite M in F; [left|right]; exact F. }
  clear -IB B2. unfold relative_branch. destruct (i_mnem i); try discriminate IB; try discriminate B2; cbn; tauto.
Qed.

Lemma entry_states_in : forall ls i st j w, In (j, w) (entry_states i ls st) -> In (j, w) st \/
  exists k l, znth ls k = Some l /\ is_dir D_entry (ln_stmt l) /\ j = i + k + 1.
Proof.
  induction ls as [|l ls IH]; intros i st j w H; cbn [entry_states] in H; [left; exact H|].
  apply IH in H. destruct H as [H|(k & l' & Z1 & D & ->)].
  - destruct (ln_stmt l) as [x|d] eqn:S; [left; exact H|]. destruct (d_name d) eqn:N; try (left; exact H).
    apply om_merge_in in H. destruct H as [->|H]; [|left; exact H]. right. exists 0, l. split; [reflexivity|]. split; [|lia].
    rewrite S. exists d. auto.
  - right. exists (k + 1), l'. split; [|split; [exact D|lia]]. pose proof (znth_some _ _ _ _ Z1). rewrite znth_cons by lia.
    replace (k + 1 - 1) with k by lia. exact Z1.
Qed.

(** The states still to be entered. *)
Definition todo (ss : list statement) (st : omap estate) : Prop :=
  forall j w, In (j, w) st -> j = zlen ss -> exists before s, ss = before ++ [s] /\ stmt_is_exit s = false.
Lemma last_stmt : forall (ss : list statement) k s, znth ss k = Some s -> k + 1 = zlen ss -> exists before, ss = before ++ [s].
Proof.
  intros ss k s H E. destruct (znth_split _ _ _ _ H) as (a & b & -> & L). exists a. destruct b; [reflexivity|].
  rewrite zlen_app, !zlen_cons in E. pose proof (zlen_nonneg _ b). lia.
Qed.
Lemma snd_last : forall (src : source) before s, map snd src = before ++ [s] -> exists b labels, src = b ++ [(labels, s)].
Proof.
  intros src before s E. destruct (snoc_cases _ src) as [->|(src' & [labels s'] & ->)]; [destruct before; discriminate E|].
  rewrite map_app in E. apply app_inj_tail in E. destruct E as [_ E]. cbn in E. subst s'. eauto.
Qed.

Lemma step_loc : forall sk ws path file src locs m0 m ls st,
  reads file src -> locs_good path file locs (zlen src) -> load_asm_file file = Ok m0 -> same_scopes m0 m ->
  map ln_stmt ls = map snd src -> all_scopes ls = all_scopes (md_lines m) -> todo (map snd src) st ->
  match lfirst_pass_step m locs ls st with
  | LOk (ls', st') => map ln_stmt ls' = map snd src /\ all_scopes ls' = all_scopes (md_lines m) /\ todo (map snd src) st'
  | LErr e l => bad_pass sk ws path file src e l
  | _ => True
  end.
Proof.
  intros sk ws path file src locs m0 m ls st R G L0 SS ES EC TD. destruct st as [|[k cur] rest]; [cbn; auto|].
  unfold lfirst_pass_step. destruct (Z.eqb_spec k (zlen ls)) as [K|K].
  { cbn. right. split; [reflexivity|]. split; [reflexivity|]. destruct (TD k cur (or_introl eq_refl)) as (before & s & E & X).
    - rewrite K, <- ES, zlen_map. reflexivity.
    - destruct (snd_last _ _ _ E) as (b & labels & ->). eauto. }
  destruct (znth ls k) as [l|] eqn:Z0; [|exact Logic.I].
  assert (SK : znth (map snd src) k = Some (ln_stmt l)) by (rewrite <- ES, MapProofs.znth_map, Z0; reflexivity).
  destruct (ln_reached l && es_eqb (ln_in l) cur).
  { split; [exact ES|]. split; [exact EC|]. intros j w I. apply (TD j w). right. exact I. }
  assert (ES' : map ln_stmt (zset k (ln_visit cur l) ls) = map snd src).
  { rewrite <- ES. apply znth_split in Z0. destruct Z0 as (a & b & -> & <-). rewrite zset_mid, !map_app. reflexivity. }
  assert (EC' : all_scopes (zset k (ln_visit cur l) ls) = all_scopes (md_lines m)).
  { rewrite <- EC. eapply zset_scopes; [exact Z0|reflexivity]. }
  destruct (at_loc (loc_at locs k) (stmt_execute (ln_stmt l) cur)) as [next|e l0|u|] eqn:X; cbn [lbind]; try exact Logic.I.
  2: { apply at_err in X. destruct X as [X ->]. left. apply place; [exact G|]. eapply blame_fails; [exact SK|left; reflexivity|]. left. eauto. }
  cbv beta zeta.
  assert (TD1 : todo (map snd src) (if stmt_is_exit (ln_stmt l) then (k, cur) :: rest else add_state (k + 1) next ((k, cur) :: rest))).
  { destruct (stmt_is_exit (ln_stmt l)) eqn:SE; [exact TD|]. intros j w I E. apply om_merge_in in I. destruct I as [->|I]; [|exact (TD j w I E)].
    destruct (last_stmt _ _ _ SK E) as [before B]. eauto. }
  destruct (ln_stmt l) as [i|d] eqn:SL; [|split; auto].
  destruct (is_local_branch i) eqn:LB; [|split; auto].
  assert (IO : instr_ok i) by (apply (reads_entity file src (SInstr i) R); eapply znth_in; exact SK).
  destruct (local_branch_named _ IO LB) as (RB & n & ty & A1). rewrite A1. cbn [simple_identifier_opt simple_identifier fi_qualified fi_module fi_name].
  assert (IDX : forall t, local_index m n (ln_scopes l) = Ok t <-> denotes src k n t).
  { intros t. pose proof (znth_some _ _ _ _ Z0) as RK.
    assert (LEN : zlen ls = zlen (md_lines m)) by (apply (f_equal zlen) in EC; unfold all_scopes in EC; rewrite !zlen_map in EC; exact EC).
    destruct (znth_in_range _ (md_lines m) k) as [lm LM]; [lia|].
    assert (SC : ln_scopes l = ln_scopes lm).
    { apply (f_equal (fun x => znth x k)) in EC. unfold all_scopes in EC. rewrite !MapProofs.znth_map, Z0, LM in EC. cbn in EC. injection EC as EC _. exact EC. }
    rewrite SC. replace k with (Z.of_nat (Z.to_nat k)) by lia. eapply lookup_denotes; [exact L0|exact R|exact SS|]. rewrite nat_znth. rewrite Z2Nat.id by lia. exact LM. }
  pose proof (local_index_outcome m n (ln_scopes l)) as LO.
  destruct (local_index m n (ln_scopes l)) as [idx|e|u|] eqn:LI.
  2, 3, 4: cbn; rewrite update_no; left; apply place; [exact G|];
    destruct (split_at _ _ _ SK) as (before & labels & after & E & EK); exists before, labels, (SInstr i), after, (SInstr i);
    split; [exact E|]; split; [exact EK|]; split; [left; reflexivity|]; cbv zeta; right; left; split; [reflexivity|]; exists i, n, ty;
    split; [reflexivity|]; split; [exact RB|]; split; [exact A1|]; intros t D; apply IDX in D; discriminate D.
  destruct (at_loc (loc_at locs k) (execute_branch i cur)) as [nx|e l0|u|] eqn:X2; cbn [lbind]; try exact Logic.I.
  - split; [exact ES'|]. split; [exact EC'|]. intros j w I E. apply om_merge_in in I. destruct I as [->|I]; [|exact (TD1 j w I E)].
    pose proof (proj1 (IDX idx) eq_refl) as D. apply denotes_range in D. rewrite zlen_map in E. lia.
  - apply at_err in X2. destruct X2 as [X2 ->]. left. apply place; [exact G|]. eapply blame_fails; [exact SK|left; reflexivity|]. right. left. eauto.
Qed.
Lemma loop_loc : forall sk ws path file src locs m0 m fuel ls st,
  reads file src -> locs_good path file locs (zlen src) -> load_asm_file file = Ok m0 -> same_scopes m0 m ->
  map ln_stmt ls = map snd src -> all_scopes ls = all_scopes (md_lines m) -> todo (map snd src) st ->
  match lfirst_pass_loop fuel m locs ls st with
  | LOk ls' => map ln_stmt ls' = map snd src
  | LErr e l => bad_pass sk ws path file src e l
  | _ => True
  end.
Proof.
  intros sk ws path file src locs m0 m. induction fuel as [|f IH]; intros ls st R G L0 SS ES EC TD; destruct st as [|p st]; try exact Logic.I; try exact ES.
  cbn [lfirst_pass_loop]. pose proof (step_loc sk ws path file src locs m0 m ls (p :: st) R G L0 SS ES EC TD) as SL.
  destruct (lfirst_pass_step m locs ls (p :: st)) as [[ls' st']|e l|u|]; cbn [lbind]; try exact SL. destruct SL as (A & B & C). apply IH; auto.
Qed.

(** The statements of the source with the lines made of them. *)
Definition follows (src : source) (k : Z) (ls : list line) : Prop :=
  forall j l, znth ls j = Some l -> exists s, znth (map snd src) (k + j) = Some s /\ widened s (ln_stmt l).
(** No .org before the statement [k]. *)
Definition no_org (src : source) (k : Z) : Prop :=
  forall j s, j < k -> znth (map snd src) j = Some s -> ~ is_dir D_org s.
Definition valued (src : source) (k : Z) (ls : list line) : Prop :=
  forall j l, znth ls j = Some l -> ln_value l = None ->
  is_dir D_equ (ln_stmt l) \/ (stmt_size (ln_stmt l) <= 0 /\ no_org src (k + j + 1)).

Lemma widened_dir : forall s d, widened s (SDir d) -> s = SDir d.
Proof. intros s d [->|(i & f & m' & _ & _ & E)]; [reflexivity|discriminate E]. Qed.
Lemma widened_is : forall s s' n, widened s s' -> is_dir n s -> is_dir n s'.
Proof. intros s s' n [->|(i & f & m' & -> & _ & E)] D; [exact D|]. destruct D as (d & X & _). discriminate X. Qed.
Lemma follows_tl : forall src k l ls, follows src k (l :: ls) -> follows src (k + 1) ls.
Proof.
  intros src k l ls F j l' H. pose proof (znth_some _ _ _ _ H) as R. destruct (F (j + 1) l') as (s & A & B).
  - rewrite znth_cons by lia. replace (j + 1 - 1) with j by lia. exact H.
  - exists s. split; [|exact B]. replace (k + 1 + j) with (k + (j + 1)) by lia. exact A.
Qed.
Lemma unplaced_of : forall src before labels s after k, src = before ++ (labels, s) :: after -> k = zlen before -> no_org src (k + 1) ->
  forall x, In x (map snd before ++ [s]) -> ~ is_dir D_org x.
Proof.
  intros src before labels s after k E -> N x I. apply in_app_iff in I. destruct I as [I|[<-|[]]].
  - apply in_znth in I. destruct I as [j J]. pose proof (znth_some _ _ _ _ J) as R. rewrite zlen_map in R. apply (N j x); [lia|].
    rewrite E, map_app. rewrite znth_app1 by (rewrite zlen_map; lia). exact J.
  - apply (N (zlen before) s); [lia|]. rewrite E, map_app. cbn [map snd]. rewrite <- (zlen_map _ _ snd before). apply znth_mid.
Qed.
Lemma no_org_step : forall src k s, no_org src k -> znth (map snd src) k = Some s -> ~ is_dir D_org s -> no_org src (k + 1).
Proof. intros src k s N H D j s' J E. destruct (Z.eq_dec j k) as [->|NE]; [congruence|]. apply (N j s'); [lia|exact E]. Qed.

Lemma fix_loc : forall sk ws path file src locs ls k, locs_good path file locs (zlen src) -> 0 <= k ->
  (forall j s, znth (map ln_stmt ls) j = Some s -> znth (map snd src) (k + j) = Some s) ->
  match lfix_modes k locs ls with
  | LErr e l => placed sk ws path file src e l
  | _ => True
  end.
Proof.
  intros sk ws path file src locs. induction ls as [|l ls IH]; intros k G K F; [exact Logic.I|]. cbn [lfix_modes].
  assert (SK : znth (map snd src) k = Some (ln_stmt l)) by (rewrite <- (Z.add_0_r k); apply F; reflexivity).
  assert (FT : forall j s, znth (map ln_stmt ls) j = Some s -> znth (map snd src) (k + 1 + j) = Some s).
  { intros j s H. pose proof (znth_some _ _ _ _ H). replace (k + 1 + j) with (k + (j + 1)) by lia. apply F. cbn [map]. rewrite znth_cons by lia.
    replace (j + 1 - 1) with j by lia. exact H. }
  assert (HEAD : match (match ln_stmt l with
        | SInstr i => if negb (ln_reached l) then at_loc (loc_at locs k) (Err E_unreached)
            else let@ i' := at_loc (loc_at locs k) (fix_addressing_mode i (es_flags (ln_in l))) in LOk (ln_with_stmt (SInstr i') l)
        | SDir _ => LOk l end) with LErr e l0 => placed sk ws path file src e l0 | _ => True end).
  { destruct (ln_stmt l) as [i|d]; [|exact Logic.I]. destruct (negb (ln_reached l)).
    - cbn. rewrite update_no. apply place; [exact G|]. destruct (split_at _ _ _ SK) as (before & labels & after & E & EK).
      exists before, labels, (SInstr i), after, (SInstr i). split; [exact E|]. split; [exact EK|]. split; [left; reflexivity|]. right. right. left. eauto.
    - destruct (at_loc (loc_at locs k) (fix_addressing_mode i (es_flags (ln_in l)))) as [i'|e l0|u|] eqn:X; try exact Logic.I.
      apply at_err in X. destruct X as [X ->]. apply place; [exact G|]. eapply blame_fails; [exact SK|left; reflexivity|]. right. right. left. eauto. }
  destruct (match ln_stmt l with SInstr i => _ | SDir _ => LOk l end) as [l'|e l0|u|]; cbn [lbind]; try exact HEAD.
  specialize (IH (k + 1) G ltac:(lia) FT). destruct (lfix_modes (k + 1) locs ls) as [rest|e l0|u|]; cbn [lbind]; try exact IH.
Qed.

Lemma layout_loc : forall sk ws path file src locs ls k pc, locs_good path file locs (zlen src) -> 0 <= k -> follows src k ls ->
  Forall (fun l => ln_value l = None) ls -> (pc = None -> no_org src k) ->
  match llayout k locs pc ls with
  | LOk ls' => valued src k ls'
  | LErr e l => placed sk ws path file src e l
  | _ => True
  end.
Proof.
  intros sk ws path file src locs. induction ls as [|l ls IH]; intros k pc G K F V N; cbn [llayout].
  { intros j l H. apply znth_some in H. rewrite zlen_nil in H. lia. }
  destruct (F 0 l eq_refl) as (s & SK & W). rewrite Z.add_0_r in SK. pose proof (follows_tl _ _ _ _ F) as FT.
  pose proof (Forall_inv V) as V0. pose proof (Forall_inv_tail V) as VT.
  assert (CONS : forall l' rest, ln_stmt l' = ln_stmt l -> valued src (k + 1) rest ->
     (ln_value l' = None -> is_dir D_equ (ln_stmt l) \/ (stmt_size (ln_stmt l) <= 0 /\ no_org src (k + 1))) -> valued src k (l' :: rest)).
  { intros l' rest ES VR H0 j x H HN. pose proof (znth_some _ _ _ _ H) as RJ. destruct (Z.eq_dec j 0) as [->|NJ].
    - injection H as <-. rewrite ES. replace (k + 0 + 1) with (k + 1) by lia. auto.
    - rewrite znth_cons in H by lia. destruct (VR _ _ H HN) as [A|[A B]]; [left; exact A|right]. split; [exact A|]. replace (k + j + 1) with (k + 1 + (j - 1) + 1) by lia. exact B. }
  set (h := match ln_stmt l with SDir d => match d_name d with D_org => _ | _ => LOk pc end | SInstr _ => LOk pc end).
  assert (HEAD : match h with
     | LOk pc' => (exists a, pc' = Some a) \/ (pc' = None /\ pc = None /\ ~ is_dir D_org s)
     | LErr e l0 => placed sk ws path file src e l0 | _ => True end).
  { unfold h. clear h. assert (SAME : ~ is_dir D_org s -> (exists a, pc = Some a) \/ (pc = None /\ pc = None /\ ~ is_dir D_org s)) by (destruct pc; eauto).
    assert (WO : is_dir D_org s -> is_dir D_org (ln_stmt l)) by (apply widened_is; exact W).
    destruct (ln_stmt l) as [i|d] eqn:SL; [apply SAME; intros D; destruct (WO D) as (d' & E & _); discriminate E|].
    destruct (d_name d) eqn:DN; try (apply SAME; intros D; destruct (WO D) as (d' & E & E'); injection E as <-; congruence).
    destruct (at_loc (loc_at locs k) (eval_opt null_ctx (d_arg d))) as [v|e l0|u|] eqn:X; cbn [lbind]; try exact Logic.I.
    - unfold mk_address. cbv zeta. destruct (to_uint32 v <=? _); cbn; eauto.
    - apply at_err in X. destruct X as [X ->]. apply place; [exact G|]. eapply blame_fails; [exact SK|exact W|]. right. right. right. left.
      exists d, null_ctx. split; [reflexivity|]. split; [rewrite DN; cbn; auto|]. split; [exact null_looks_up|exact X]. }
  clearbody h. destruct h as [pc'|e l0|u|]; cbn [lbind]; try exact HEAD.
  destruct HEAD as [[a ->]|(-> & -> & NO)].
  - specialize (IH (k + 1) (Some (add_wrapped a (stmt_size (ln_stmt l)))) G ltac:(lia) FT VT ltac:(discriminate)).
    destruct (llayout (k + 1) locs _ ls) as [rest|e l0|u|]; cbn [lbind]; try exact IH. apply CONS; [destruct (stmt_is_dir D_equ (ln_stmt l)); reflexivity|exact IH|].
    intros HN. left. destruct (stmt_is_dir D_equ (ln_stmt l)) eqn:SD; [|discriminate HN]. destruct (ln_stmt l) as [i|d]; [discriminate SD|]. exists d. split; [reflexivity|].
    unfold stmt_is_dir in SD. destruct (d_name d); try discriminate SD. reflexivity.
  - pose proof (no_org_step _ _ _ (N eq_refl) SK NO) as N1.
    destruct (Z.ltb_spec 0 (stmt_size (ln_stmt l))) as [SZ|SZ].
    + cbn. rewrite update_no. apply place; [exact G|]. destruct (split_at _ _ _ SK) as (before & labels & after & E & EK).
      exists before, labels, s, after, (ln_stmt l). split; [exact E|]. split; [exact EK|]. split; [exact W|]. right. right. right. left.
      split; [reflexivity|]. split; [exact SZ|]. eapply unplaced_of; eassumption.
    + specialize (IH (k + 1) None G ltac:(lia) FT VT (fun _ => N1)).
      destruct (llayout (k + 1) locs None ls) as [rest|e l0|u|]; cbn [lbind]; try exact IH. apply CONS; [reflexivity|exact IH|]. intros _. right. split; [exact SZ|exact N1].
Qed.

Lemma Forall2_znth' : forall A B (P : A -> B -> Prop) l l', Forall2 P l l' ->
  forall i y, znth l' i = Some y -> exists x, znth l i = Some x /\ P x y.
Proof.
  intros A B P l l' F i y Y. pose proof (znth_some _ _ _ _ Y) as R. rewrite (Forall2_zlen _ _ _ _ _ F) in R.
  destruct (znth_in_range _ l i R) as [x X]. destruct (Forall2_znth _ _ _ _ _ F _ _ X) as (y' & Y' & H). exists x. split; [exact X|congruence].
Qed.
Lemma erase_ok : forall A (r : lres A) a, r = LOk a -> erase r = Ok a.
Proof. intros A r a ->. reflexivity. Qed.
Definition unowned (lm : lmodule) : Prop := md_owned (lm_mod lm) = [].
Definition ready (path : string) (file : list string) (src : source) (lm : lmodule) : Prop :=
  based path file src lm /\ unowned lm /\ zlen (md_lines (lm_mod lm)) = zlen src /\ follows src 0 (md_lines (lm_mod lm)) /\ valued src 0 (md_lines (lm_mod lm)).

Lemma resolved_widened : forall s l, resolved s l -> widened s (ln_stmt l).
Proof.
  intros [i|d] l H; cbn in H; [|left; exact H]. destruct H as (_ & m' & S & E). right. exists i, (es_flags (ln_in l)), m'. auto.
Qed.
Lemma resolves_widened : forall l l', resolves_to l l' -> widened (ln_stmt l) (ln_stmt l').
Proof.
  intros l l' H. unfold resolves_to in H. destruct (ln_stmt l) as [i|d] eqn:S; [|subst l'; left; congruence].
  destruct H as (_ & i' & X & ->). right. destruct (settled_fix _ _ _ X) as (m' & ST & ->). exists i, (es_flags (ln_in l)), m'. split; [reflexivity|]. auto.
Qed.

Lemma first_loc : forall sk ws path file fuel lm, lm_path lm = path -> load_asm_file file = Ok (lm_mod lm) ->
  forall src, reads file src -> locs_good path file (lm_locs lm) (zlen src) ->
  match lrun_first_pass fuel lm with
  | LOk lm' => ready path file src lm'
  | LErr e l => bad_pass sk ws path file src e l
  | _ => True
  end.
Proof.
  intros sk ws path file fuel lm P L src R G. pose proof (e_first fuel lm) as EF. unfold lrun_first_pass in *.
  set (m := lm_mod lm) in *. set (locs := lm_locs lm) in *.
  destruct (loaded_source _ _ L) as (src' & R' & ES). rewrite (reads_det _ _ _ R' R) in ES. clear R'.
  assert (VN : Forall (fun l => ln_value l = None) (md_lines m)).
  { apply load_exact in L. destruct L as (src2 & name & _ & _ & _ & E). rewrite E. clear. cbn. generalize (dlist src2). intros d. generalize 0, (@nil Z).
    induction src2 as [|[labels s] src2 IH]; intros i sc; cbn [mk_lines]; constructor; [reflexivity|apply IH]. }
  assert (TD : todo (map snd src) (entry_states 0 (md_lines m) [])).
  { intros j w I E. apply entry_states_in in I. destruct I as [[]|(k & l & Z0 & D & ->)].
    assert (SK : znth (map snd src) k = Some (ln_stmt l)) by (rewrite <- ES, MapProofs.znth_map, Z0; reflexivity).
    destruct (last_stmt _ _ _ SK ltac:(lia)) as [before B]. exists before, (ln_stmt l). split; [exact B|]. destruct D as (d & -> & DN). cbn. rewrite DN. reflexivity. }
  pose proof (loop_loc sk ws path file src locs m m fuel (md_lines m) _ R G L (same_scopes_refl m) ES eq_refl TD) as LL.
  pose proof (e_loop fuel m locs (md_lines m) (entry_states 0 (md_lines m) [])) as EL.
  destruct (lfirst_pass_loop fuel m locs (md_lines m) (entry_states 0 (md_lines m) [])) as [ls|e l|u|]; cbn [lbind] in *; try exact LL.
  cbn [erase] in EL. symmetry in EL. assert (VL : map ln_value ls = map ln_value (md_lines m)) by (apply first_pass_loop_core in EL; apply (f_equal (map snd)) in EL; rewrite !map_map in EL; exact EL).
  pose proof (fix_loc sk ws path file src locs ls 0 G ltac:(lia)) as FL.
  assert (F0 : forall j s, znth (map ln_stmt ls) j = Some s -> znth (map snd src) (0 + j) = Some s) by (intros j s H; rewrite <- LL; exact H).
  specialize (FL F0). pose proof (e_fix ls 0 locs) as EX.
  destruct (lfix_modes 0 locs ls) as [ls2|e l|u|]; cbn [lbind] in *; try exact Logic.I; [|left; exact FL].
  cbn [erase] in EX. symmetry in EX. pose proof (fix_modes_values _ _ EX) as VX. apply fix_modes_spec in EX.
  assert (FW : follows src 0 ls2).
  { intros j l2 H. destruct (Forall2_znth' _ _ _ _ _ EX j l2 H) as (l1 & H1 & RT). exists (ln_stmt l1). split; [|apply resolves_widened; exact RT].
    apply F0. rewrite MapProofs.znth_map, H1. reflexivity. }
  assert (VN2 : Forall (fun l => ln_value l = None) ls2).
  { apply Forall_forall. intros l I. apply (in_map ln_value) in I. rewrite VX, VL in I. apply in_map_iff in I. destruct I as (l1 & E & I). rewrite Forall_forall in VN. rewrite <- E. apply VN. exact I. }
  pose proof (layout_loc sk ws path file src locs ls2 0 None G ltac:(lia) FW VN2 ltac:(intros _ j s H H1; apply znth_some in H1; lia)) as LY.
  destruct (llayout 0 locs None ls2) as [ls3|e l|u|]; cbn [lbind] in *; try exact Logic.I; [|left; exact LY].
  cbn [erase bind lm_mod lm_with] in EF. symmetry in EF.
  pose proof (first_pass_resolved _ _ _ EF) as RS. fold m in RS. rewrite ES in RS.
  pose proof (first_pass_scopes _ _ _ EF) as SC.
  split; [|split; [|split; [|split]]]; cbn [lm_path lm_mod lm_locs lm_with md_lines md_with_lines md_owned].
  - split; [exact P|]. split; [exact R|]. split; [exact G|]. exists m. split; [exact L|exact SC].
  - unfold unowned. cbn. apply (loaded_owned _ _ L).
  - cbn in RS. apply Forall2_zlen in RS. rewrite zlen_map in RS. exact RS.
  - cbn in RS. intros j l H. destruct (Forall2_znth' _ _ _ _ _ RS j l H) as (s & H1 & RT). exists s. split; [exact H1|apply resolved_widened; exact RT].
  - exact LY.
Qed.

(** ** The second pass. *)
Definition constants_done (k : Z) (ls : list line) : Prop :=
  forall j l, j < k -> znth ls j = Some l -> is_dir D_equ (ln_stmt l) -> ln_value l <> None.
Definition settled_module (src : source) (m : module) : Prop :=
  zlen (md_lines m) = zlen src /\ follows src 0 (md_lines m) /\ valued src 0 (md_lines m).

Lemma second_loop_loc : forall sk ws path file src locs ext n k m, (forall cur, looks_up (ext cur)) -> locs_good path file locs (zlen src) -> 0 <= k ->
  zlen (md_lines m) <= k + Z.of_nat n -> settled_module src m -> constants_done k (md_lines m) ->
  match lsecond_pass_loop n k ext locs m with
  | LOk m' => settled_module src m' /\ constants_done (zlen src) (md_lines m') /\ md_owned m' = md_owned m
  | LErr e l => placed sk ws path file src e l
  | _ => True
  end.
Proof.
  intros sk ws path file src locs ext. induction n as [|n IH]; intros k m LU G K LEN S C; cbn [lsecond_pass_loop].
  - split; [exact S|]. split; [|reflexivity]. intros j l J. apply C. destruct S as (S & _). lia.
  - destruct (znth (md_lines m) k) as [l|] eqn:Z0.
    2: { apply znth_none in Z0. split; [exact S|]. split; [|reflexivity]. intros j l J. apply C. destruct S as (S & _). lia. }
    destruct S as (S1 & S2 & S3).
    assert (NEXT : forall d, ln_stmt l = SDir d -> d_name d <> D_equ \/ ln_value l <> None -> constants_done (k + 1) (md_lines m)).
    { intros d E N j x J H D. destruct (Z.eq_dec j k) as [->|NE]; [|apply (C j x); [lia|exact H|exact D]].
      rewrite Z0 in H. injection H as <-. rewrite E in D. destruct D as (d' & X & Y). injection X as <-. destruct N; congruence. }
    assert (SKIP : constants_done (k + 1) (md_lines m) -> match lsecond_pass_loop n (k + 1) ext locs m with
       | LOk m' => settled_module src m' /\ constants_done (zlen src) (md_lines m') /\ md_owned m' = md_owned m
       | LErr e l => placed sk ws path file src e l | _ => True end).
    { intros C1. apply IH; auto; [lia|lia|]. split; auto. }
    destruct (ln_stmt l) as [i|d] eqn:SL.
    { cbn [lbind]. apply SKIP. intros j x J H D. destruct (Z.eq_dec j k) as [->|NE]; [|apply (C j x); [lia|exact H|exact D]].
      rewrite Z0 in H. injection H as <-. rewrite SL in D. destruct D as (d' & X & _). discriminate X. }
    destruct (d_name d) eqn:DN; try (cbn [lbind]; apply SKIP; eapply NEXT; [reflexivity|left; congruence]).
    destruct (ln_value l) as [v|] eqn:V; [cbn [lbind]; apply SKIP; eapply NEXT; [reflexivity|right; congruence]|].
    destruct (S2 k l Z0) as (s & SK & W). rewrite Z.add_0_l in SK.
    destruct (at_loc (loc_at locs k) (eval_opt (module_ctx m (ln_scopes l) (ext m)) (d_arg d))) as [v|e l0|u|] eqn:X; cbn [lbind]; try exact Logic.I.
    2: { apply at_err in X. destruct X as [X ->]. apply place; [exact G|]. eapply blame_fails; [exact SK|exact W|]. right. right. right. left.
         exists d, (module_ctx m (ln_scopes l) (ext m)). split; [exact SL|]. split; [rewrite DN; cbn; auto|]. split; [apply module_looks_up, LU|exact X]. }
    set (m1 := md_with_lines (zset k (ln_with_value v l) (md_lines m)) m).
    pose proof (znth_some _ _ _ _ Z0) as RK.
    assert (ZN : forall j x, znth (md_lines m1) j = Some x -> exists y, znth (md_lines m) j = Some y /\ ln_stmt x = ln_stmt y /\ (ln_value x = None -> x = y) /\ (j = k -> ln_value x <> None)).
    { intros j x H. unfold m1 in H. cbn [md_lines md_with_lines] in H. rewrite znth_zset in H by exact RK. destruct (Z.eqb_spec k j) as [<-|NE].
      - injection H as <-. exists l. split; [exact Z0|]. split; [reflexivity|]. split; [discriminate|intros _; discriminate].
      - exists x. split; [exact H|]. split; [reflexivity|]. split; [reflexivity|congruence]. }
    assert (LM : zlen (md_lines m1) = zlen (md_lines m)) by (unfold m1; cbn; apply zlen_zset).
    specialize (IH (k + 1) m1 LU G ltac:(lia) ltac:(rewrite LM; lia)).
    assert (SM : settled_module src m1).
    { split; [congruence|]. split.
      - intros j x H. destruct (ZN _ _ H) as (y & Y & -> & _). apply S2. exact Y.
      - intros j x H HN. destruct (ZN _ _ H) as (y & Y & E & Q & _). specialize (Q HN). subst y. apply S3; assumption. }
    assert (C1 : constants_done (k + 1) (md_lines m1)).
    { intros j x J H D. destruct (ZN _ _ H) as (y & Y & E & Q & Q'). destruct (Z.eq_dec j k) as [->|NE]; [apply Q'; reflexivity|].
      intros HN. specialize (Q HN). subst y. apply (C j x); [lia|exact Y|exact D|exact HN]. }
    apply (IH SM C1).
Qed.

Definition finished (path : string) (file : list string) (src : source) (lm : lmodule) : Prop :=
  based path file src lm /\ unowned lm /\ settled_module src (lm_mod lm) /\ constants_done (zlen src) (md_lines (lm_mod lm)).
Lemma second_loc : forall sk ws path file src ext lm, (forall cur, looks_up (ext cur)) -> ready path file src lm ->
  match lrun_second_pass ext lm with
  | LOk lm' => finished path file src lm'
  | LErr e l => placed sk ws path file src e l
  | _ => True
  end.
Proof.
  intros sk ws path file src ext lm LU ((P & R & G & m0 & L & SC) & U & LEN & F & V). pose proof (e_second ext lm) as ES. unfold lrun_second_pass in *.
  pose proof (second_loop_loc sk ws path file src (lm_locs lm) ext (List.length (md_lines (lm_mod lm))) 0 (lm_mod lm) LU G ltac:(lia) ltac:(unfold zlen; lia)) as SL.
  assert (C0 : constants_done 0 (md_lines (lm_mod lm))) by (intros j l J H; apply znth_some in H; lia).
  specialize (SL (conj LEN (conj F V)) C0).
  destruct (lsecond_pass_loop _ 0 ext (lm_locs lm) (lm_mod lm)) as [m'|e l|u|]; cbn [lbind] in *; try exact SL.
  destruct SL as (S & C & O). cbn in ES. symmetry in ES. apply second_pass_scopes in ES.
  split; [|split; [|split]]; cbn [lm_path lm_mod lm_locs lm_with]; [|unfold unowned in *; cbn; congruence|exact S|exact C].
  split; [exact P|]. split; [exact R|]. split; [exact G|]. exists m0. split; [exact L|]. eapply same_scopes_trans; [exact SC|exact ES].
Qed.

(** ** Assembling. *)
Lemma address_soft : forall v e, label_to_address v <> Err e.
Proof. intros v e. unfold label_to_address, mk_address. cbv zeta. destruct (_ <=? _); discriminate. Qed.
Lemma claim_soft : forall fuel r loc len ok e, claim_loop fuel r loc len ok <> Err e.
Proof.
  induction fuel as [|f IH]; intros r loc len ok e; cbn [claim_loop]; destruct (0 <? len); try discriminate.
  unfold add_unwrapped, mk_address. cbv zeta. destruct (_ <=? _); cbn [bind]; [|discriminate]. destruct (claim_chunk r _). apply IH.
Qed.
Lemma touched_long : forall w, NoDup (touched w) -> zlen (snd w) <= 65536.
Proof.
  intros w N. destruct (Z.leb_spec (zlen (snd w)) 65536) as [H|H]; [exact H|exfalso]. unfold zlen in H.
  unfold touched in N. rewrite (NoDup_nth_error (map _ _)) in N.
  assert (E : forall k, (k < List.length (snd w))%nat -> nth_error (map (fun k => same_bank_plus (fst w) (Z.of_nat k)) (seq 0 (List.length (snd w)))) k = Some (same_bank_plus (fst w) (Z.of_nat k))).
  { intros k K. rewrite nth_error_map. rewrite (nth_error_nth' _ 0%nat) by (rewrite seq_length; exact K). rewrite seq_nth by exact K. reflexivity. }
  specialize (N 0%nat (Z.to_nat 65536)). rewrite map_length, seq_length in N. specialize (N ltac:(lia)). rewrite !E in N by lia.
  assert (X : same_bank_plus (fst w) (Z.of_nat 0) = same_bank_plus (fst w) (Z.of_nat (Z.to_nat 65536))).
  { rewrite Z2Nat.id by lia. unfold same_bank_plus, bank_of, offset_of. change (2 ^ 16) with 65536. f_equal. rewrite Z.add_0_r. rewrite Z.add_mod by lia. rewrite Z_mod_same_full, Z.add_0_r. symmetry. apply Z.mod_mod. lia. }
  rewrite X in N. specialize (N eq_refl). lia.
Qed.

Lemma set_line : forall A path n (r : lres A) e l, path <> ""%string -> set_location (line_of path n) r = LErr e l ->
  l = line_of path n /\ exists l0, r = LErr e l0.
Proof.
  intros A path n [a|e' l'|u|] e l P H; cbn in H; try discriminate H.
  injection H as -> <-. split; [|eauto]. unfold loc_update, line_of. cbn [loc_path loc_offset]. destruct (String.eqb_spec path ""); [contradiction|reflexivity].
Qed.
Lemma lwbind_err : forall A B (x : lwres A) (f : list write -> A -> lwres B) ws e l, lwbind x f = (ws, LErr e l) ->
  x = (ws, LErr e l) \/ exists ws1 a, x = (ws1, LOk a) /\ f ws1 a = (ws, LErr e l).
Proof. intros A B [ws1 [a|e' l'|u|]] f ws e l H; cbn in H; try discriminate H; [right; eauto|left; congruence]. Qed.
Lemma lwbind_ok : forall A B (x : lwres A) (f : list write -> A -> lwres B) ws b, lwbind x f = (ws, LOk b) ->
  exists ws1 a, x = (ws1, LOk a) /\ f ws1 a = (ws, LOk b).
Proof. intros A B [ws1 [a|e' l'|u|]] f ws b H; cbn in H; try discriminate H. eauto. Qed.

(** What is owned has been written since [ws0]. *)
Definition owns (ws : list write) (m : module) : Prop :=
  canonical (md_owned m) /\ forall x, covers (md_owned m) x -> In x (flat_map touched ws).
Definition all_settled (src : source) (m : module) : Prop :=
  settled_module src m /\ constants_done (zlen src) (md_lines m).

Lemma stmt_loc : forall sk ws ws' path file src locs ext l m k e lo, looks_up ext -> path <> ""%string -> locs_good path file locs (zlen src) ->
  all_settled src m -> znth (md_lines m) k = Some l -> owns ws m ->
  lassemble_stmt sk ext (loc_at locs k) l ws m = (ws', LErr e lo) -> placed sk ws' path file src e lo.
Proof.
  intros sk ws ws' path file src locs ext l m k e lo LU P G ((S1 & S2 & S3) & C) Z0 (OC & OI) H.
  destruct (S2 k l Z0) as (s & SK & W). rewrite Z.add_0_l in SK. pose proof (znth_some _ _ _ _ Z0) as RK.
  destruct (split_at _ _ _ SK) as (before & labels & after & E & EK).
  destruct (proj2 G k ltac:(lia)) as (n & LN & ST).
  assert (LA : loc_at locs k = line_of path n) by (unfold loc_at; rewrite LN; reflexivity).
  assert (FAIL : forall e', fails (ln_stmt l) e' -> placed sk ws' path file src e' (loc_at locs k)).
  { intros e' X. apply place; [exact G|]. eapply blame_fails; [exact SK|exact W|exact X]. }
  assert (NV : ln_value l = None -> ~ is_dir D_equ (ln_stmt l) -> stmt_size (ln_stmt l) <= 0 /\ no_org src (k + 1)).
  { intros V N. destruct (S3 k l Z0 V) as [D|D]; [contradiction|]. exact D. }
  unfold lassemble_stmt in H. cbv zeta in H. destruct (Z.ltb_spec 0 (stmt_size (ln_stmt l))) as [SZ|SZ].
  - destruct (ln_value l) as [v|] eqn:V.
    2: { exfalso. destruct (sized_not_equ _ SZ) as [NE _]. destruct (NV eq_refl NE). lia. }
    apply lwbind_err in H. destruct H as [H|(ws1 & a & A & H)].
    { injection H as _ H. apply bare_err in H. destruct H as [H _]. destruct (address_soft _ _ H). }
    injection A as <- A. apply bare_ok in A. apply lwbind_err in H. destruct H as [H|(ws2 & [] & B & H)].
    + (* encoding or writing *) unfold lstmt_assemble in H.
      destruct (stmt_bytes a (module_ctx m (ln_scopes l) ext) (ln_stmt l)) as [[b|]|e1|u|] eqn:SB; try discriminate H.
      * destruct (lsink_write sk ws (a, b)) as [ws2 r] eqn:SW. injection H as <- H. rewrite LA in H.
        apply set_line in H; [|exact P]. destruct H as (-> & l0 & ->). unfold lsink_write in SW.
        destruct (sk ws (a, b)) as [x|e1 l1|u|] eqn:SKE; cbn [lbind] in SW; try discriminate SW. injection SW as <- -> _.
        rewrite <- LA. apply place; [exact G|]. exists before, labels, s, after, (ln_stmt l). split; [exact E|]. split; [exact EK|]. split; [exact W|].
        do 6 right. exists (a, b), (module_ctx m (ln_scopes l) ext). split; [exact SB|]. right. eauto.
      * cbn in H. rewrite update_no in H. injection H as <- <- <-. apply FAIL. do 4 right. exists a, (module_ctx m (ln_scopes l) ext). split; [apply module_looks_up, LU|exact SB].
    + apply lwbind_err in H. destruct H as [H|(ws3 & [ok owned] & D & H)].
      { injection H as _ H. apply bare_err in H. destruct H as [H _]. destruct (claim_soft _ _ _ _ _ _ H). }
      injection D as <- D. apply bare_ok in D. destruct ok; [discriminate H|]. cbn in H. rewrite update_no in H. injection H as <- <- <-.
      unfold lstmt_assemble in B.
      destruct (stmt_bytes a (module_ctx m (ln_scopes l) ext) (ln_stmt l)) as [[b|]|e1|u|] eqn:SB; try discriminate B.
      2: { pose proof (stmt_bytes_size _ _ _ _ SB) as X. cbn beta iota in X. lia. }
      pose proof (stmt_bytes_size _ _ _ _ SB) as [L _].
      unfold lsink_write in B. destruct (sk ws (a, b)) as [x|e1 l1|u|]; try discriminate B. cbn in B. injection B as <-.
      assert (R : 0 <= a <= 2 ^ 24).
      { unfold label_to_address, mk_address in A. destruct (Z.leb_spec (to_uint32 v) 16777216); [|discriminate A].
        injection A as <-. unfold to_uint32 in *. lia. }
      assert (A24 : addr24 a) by (eapply claim_high; [exact D|exact R|exact SZ]).
      destruct (claim_bytes_spec (md_owned m) a (stmt_size (ln_stmt l)) OC A24) as (ok & r' & E1 & _ & _ & OK).
      rewrite D in E1. injection E1 as <- <-.
      assert (ND : ~ NoDup (flat_map touched (ws ++ [(a, b)]))).
      { intros ND. rewrite flat_map_app in ND. cbn [flat_map] in ND. rewrite app_nil_r in ND. apply nodup_app_iff in ND. destruct ND as (_ & N2 & DJ).
        assert (false = true); [|discriminate]. apply OK. apply touched_long in N2. cbn [snd] in N2. split; [lia|].
        intros y X CV. apply (DJ y (OI y CV)). apply touched_in. cbn [fst snd]. rewrite L. exact X. }
      apply place; [exact G|]. exists before, labels, s, after, (ln_stmt l). split; [exact E|]. split; [exact EK|]. split; [exact W|].
      do 6 right. exists (a, b), (module_ctx m (ln_scopes l) ext). split; [exact SB|]. left. split; [reflexivity|]. split; [eauto|exact ND].
  - destruct (ln_stmt l) as [i|d] eqn:SL; [discriminate H|]. destruct (d_name d) eqn:DN; try discriminate H.
    + (* entry *) destruct (ln_value l) as [v|] eqn:V.
      * injection H as _ H. apply lbind_err in H. destruct H as [H|(a & _ & H)]; [|discriminate H]. apply bare_err in H. destruct H as [H _]. destruct (address_soft _ _ H).
      * cbn in H. rewrite update_no in H. injection H as <- <- <-. apply place; [exact G|].
        pose proof (widened_dir _ _ W) as ->.
        exists before, labels, (SDir d), after, (SDir d). split; [exact E|]. split; [exact EK|]. split; [exact W|]. do 5 right. left. split; [reflexivity|].
        split; [exists d; auto|]. eapply unplaced_of; [exact E|exact EK|]. apply NV; [reflexivity|]. intros (d' & X & Y). injection X as <-. congruence.
    + (* remote *) injection H as <- H. apply lbind_err in H. destruct H as [H|(v & _ & H)].
      * apply at_err in H. destruct H as [H ->]. apply FAIL. right. right. right. left. exists d, (module_ctx m (ln_scopes l) ext). split; [reflexivity|]. split; [rewrite DN; cbn; auto|]. split; [apply module_looks_up, LU|exact H].
      * apply lbind_err in H. destruct H as [H|(a & _ & H)]; [|discriminate H]. apply bare_err in H. destruct H as [H _]. destruct (address_soft _ _ H).
Qed.

Lemma far_soft : forall l i m e, record_far_target l i m <> Err e.
Proof.
  intros l i m e H. unfold record_far_target in H. destruct (ln_value l) as [v|]; [|discriminate H].
  destruct (label_to_address v) as [a|e1|u|] eqn:A; try discriminate H; [|destruct (address_soft _ _ A)]. cbn [bind] in H.
  assert (F : forall e, far_branch_target i a <> Err e).
  { intros e1. unfold far_branch_target. cbv zeta.
    assert (T : forall k : Z -> res Z, (forall v e, k v <> Err e) ->
      match eval_opt null_ctx (i_arg1 i) with Ok v => bind (k v) (fun a => Ok (Some a)) | Err _ => Ok None | UB u => UB u | OutOfFuel => OutOfFuel end <> Err e1).
    { intros k K. destruct (eval_opt null_ctx (i_arg1 i)) as [v0| | |]; try discriminate. destruct (k v0) eqn:KV; try discriminate. destruct (K _ _ KV). }
    assert (MA : forall v e, mk_address v <> Err e) by (intros v0 e0; unfold mk_address; destruct (_ <=? _); discriminate).
    destruct (i_mode i), (i_mnem i); try discriminate; apply T; first [exact MA|discriminate]. }
  destruct (far_branch_target i a) as [[t|]|e1|u|] eqn:FB; try discriminate H. destruct (F e1 eq_refl).
Qed.

Lemma assemble_stmt_owns : forall sk ext lo l ws m ws' m', owns ws m -> lassemble_stmt sk ext lo l ws m = (ws', LOk m') ->
  same_code m m' /\ owns ws' m'.
Proof.
  intros sk ext lo l ws m ws' m' (OC & OI) H. pose proof (e_assemble_stmt sk ext lo l ws m) as E. rewrite H in E. unfold werase in E. cbn [fst snd erase] in E.
  symmetry in E. destruct (line_assemble_spec _ _ _ _ _ _ _ OC E) as (S & C & B). split; [exact S|]. split; [exact C|].
  destruct (has_bytes l).
  - destruct B as (w & -> & _ & _ & CV & _). intros x X. apply CV in X. rewrite flat_map_app. apply in_or_app. cbn. rewrite app_nil_r. destruct X; auto.
  - destruct B as [-> ->]. exact OI.
Qed.
Lemma same_settled : forall src m m', same_code m m' -> all_settled src m -> all_settled src m'.
Proof. intros src m m' (_ & E & _) H. unfold all_settled, settled_module in *. rewrite E. exact H. Qed.

Lemma lines_assemble_loc : forall sk path file src locs ext ls k ws m, looks_up ext -> path <> ""%string -> locs_good path file locs (zlen src) -> 0 <= k ->
  all_settled src m -> owns ws m -> (forall j l, znth ls j = Some l -> znth (md_lines m) (k + j) = Some l) ->
  match lassemble_lines sk ext k locs ls ws m with
  | (ws', LOk m') => same_code m m' /\ owns ws' m'
  | (ws', LErr e l) => placed sk ws' path file src e l
  | _ => True
  end.
Proof.
  intros sk path file src locs ext. induction ls as [|l ls IH]; intros k ws m LU P G K S O Z0; cbn [lassemble_lines]; [split; [apply same_code_refl|exact O]|].
  assert (ZK : znth (md_lines m) k = Some l) by (rewrite <- (Z.add_0_r k); apply Z0; reflexivity).
  destruct (lassemble_stmt sk ext (loc_at locs k) l ws m) as [ws1 [m1|e lo|u|]] eqn:A; cbn [lwbind]; try exact Logic.I.
  2: { exact (stmt_loc _ _ _ _ _ _ _ _ _ _ _ _ _ LU P G S ZK O A). }
  destruct (assemble_stmt_owns _ _ _ _ _ _ _ _ O A) as [S1 O1].
  assert (R : match (match ln_stmt l with SInstr i => record_far_target l i m1 | SDir _ => Ok m1 end) with
    | Ok m2 => same_code m1 m2 /\ md_owned m2 = md_owned m1 | Err _ => False | _ => True end).
  { destruct (ln_stmt l) as [i|d]; [|split; [apply same_code_refl|reflexivity]]. destruct (record_far_target l i m1) as [m2|e|u|] eqn:F; try exact Logic.I.
    - eapply far_target_code. exact F.
    - exact (far_soft _ _ _ _ F). }
  destruct (match ln_stmt l with SInstr i => record_far_target l i m1 | SDir _ => Ok m1 end) as [m2|e|u|]; cbn [bare lwbind]; try exact R; try contradiction.
  destruct R as [S2 O2]. pose proof (same_code_trans _ _ _ S1 S2) as S12.
  assert (ZT : forall j l', znth ls j = Some l' -> znth (md_lines m2) (k + 1 + j) = Some l').
  { intros j l' H. destruct S12 as (_ & -> & _). pose proof (znth_some _ _ _ _ H). replace (k + 1 + j) with (k + (j + 1)) by lia. apply Z0. rewrite znth_cons by lia. replace (j + 1 - 1) with j by lia. exact H. }
  assert (OO : owns ws1 m2) by (unfold owns; rewrite O2; exact O1).
  specialize (IH (k + 1) ws1 m2 LU P G ltac:(lia) (same_settled _ _ _ S12 S) OO ZT).
  destruct (lassemble_lines sk ext (k + 1) locs ls ws1 m2) as [ws3 [m3|e lo|u|]]; try exact IH.
  destruct IH as [S3 O3]. split; [eapply same_code_trans; eassumption|exact O3].
Qed.

Lemma globals_defined : forall path file src lm n k, based path file src lm -> In (n, k) (md_globals (lm_mod lm)) -> defined src None n k.
Proof.
  intros path file src lm n k (_ & R & _ & m0 & L & (_ & E & _)) I. rewrite E in I. apply load_exact in L. destruct L as (src' & name & R' & _ & _ & ->).
  rewrite (reads_det _ _ _ R' R) in I. cbn in I. apply in_scope_in in I. apply defined_dlist. exact I.
Qed.
Lemma names_loc : forall sk ws path file src locs ls gs acc, locs_good path file locs (zlen src) ->
  follows src 0 ls -> valued src 0 ls -> constants_done (zlen src) ls -> zlen ls = zlen src ->
  (forall n k, In (n, k) gs -> defined src None n k) ->
  match lname_addresses locs ls gs acc with LErr e l => placed sk ws path file src e l | _ => True end.
Proof.
  intros sk ws path file src locs ls. induction gs as [|[n i] gs IH]; intros acc G F V C LEN D; [exact Logic.I|]. cbn [lname_addresses].
  destruct (znth ls i) as [l|] eqn:Z0; [|exact Logic.I]. pose proof (znth_some _ _ _ _ Z0) as RI.
  destruct (ln_value l) as [v|] eqn:LV.
  - destruct (label_to_address v) as [a|e|u|] eqn:A; cbn [bare lbind]; try exact Logic.I; [|destruct (address_soft _ _ A)].
    apply IH; auto. intros n' k' I. apply (D n' k'). right. exact I.
  - cbn. rewrite update_no. apply place; [exact G|]. destruct (F i l Z0) as (s & SK & W). rewrite Z.add_0_l in SK.
    destruct (split_at _ _ _ SK) as (before & labels & after & E & EK).
    exists before, labels, s, after, (ln_stmt l). split; [exact E|]. split; [exact EK|]. split; [exact W|]. do 4 right. left. split; [reflexivity|].
    split; [exists n; apply D; left; reflexivity|]. eapply unplaced_of; [exact E|exact EK|].
    destruct (V i l Z0 LV) as [X|[_ X]]; [|exact X]. destruct (C i l ltac:(lia) Z0 X LV).
Qed.
Lemma module_loc : forall sk path file src ext ws lm, looks_up ext -> path <> ""%string -> finished path file src lm ->
  match lmodule_assemble sk ext ws lm with
  | (ws', LOk lm') => exists rs, ws' = ws ++ rs /\ canonical (md_owned (lm_mod lm')) /\
      forall x, covers (md_owned (lm_mod lm')) x <-> In x (flat_map touched rs)
  | (ws', LErr e l) => placed sk ws' path file src e l
  | _ => True
  end.
Proof.
  intros sk path file src ext ws lm LU P (B & U & S & C). pose proof (e_module sk ext ws lm) as EM. unfold lmodule_assemble in *.
  assert (G : locs_good path file (lm_locs lm) (zlen src)) by (destruct B as (_ & _ & G & _); exact G).
  assert (O : owns ws (lm_mod lm)).
  { unfold owns. rewrite U. split; [exact Logic.I|]. intros x X. apply covers_nil in X. destruct X. }
  pose proof (lines_assemble_loc sk path file src (lm_locs lm) ext (md_lines (lm_mod lm)) 0 ws (lm_mod lm) LU P G ltac:(lia) (conj S C) O ltac:(intros j l H; exact H)) as LL.
  destruct (lassemble_lines sk ext 0 (lm_locs lm) (md_lines (lm_mod lm)) ws (lm_mod lm)) as [ws1 [m1|e l|u|]]; cbn [lwbind] in *; try exact LL.
  destruct LL as [SC OW]. destruct (same_settled _ _ _ SC (conj S C)) as ((S1 & S2 & S3) & C1).
  assert (GD : forall n k, In (n, k) (md_globals m1) -> defined src None n k).
  { intros n k I. destruct SC as (_ & _ & E & _). rewrite E in I. eapply globals_defined; [exact B|exact I]. }
  pose proof (names_loc sk ws1 path file src (lm_locs lm) (md_lines m1) (md_globals m1) (md_addr_names m1) G S2 S3 C1 S1 GD) as NL.
  destruct (lname_addresses (lm_locs lm) (md_lines m1) (md_globals m1) (md_addr_names m1)) as [names|e l|u|]; cbn [lbind] in *; try exact NL.
  unfold unloc in EM. cbn in EM. symmetry in EM. apply module_assemble_spec in EM; [|rewrite U; exact Logic.I].
  destruct EM as (rs & -> & _ & _ & CN & CV & _). exists rs. split; [reflexivity|]. split; [exact CN|]. intros x. etransitivity; [apply CV|]. rewrite U, covers_nil. tauto.
Qed.

(** ** All files. *)
Definition file := (string * list string)%type.
Definition loaded_file (f : file) (lm : lmodule) : Prop :=
  lm_path lm = fst f /\ load_asm_file (snd f) = Ok (lm_mod lm) /\
  exists src, reads (snd f) src /\ locs_good (fst f) (snd f) (lm_locs lm) (zlen src).
Lemma files_loc : forall files,
  match lload_files files with
  | LOk ms => Forall2 loaded_file files ms
  | LErr e l => exists f, In f files /\ bad_load (fst f) (snd f) e l
  | _ => True
  end.
Proof.
  induction files as [|[path f] files IH]; [constructor|]. cbn [lload_files]. pose proof (load_loc path f) as L.
  destruct (lload_asm_file path f) as [lm|e l|u|]; cbn [lbind]; try exact Logic.I.
  2: { exists (path, f). split; [left; reflexivity|exact L]. }
  destruct (lload_files files) as [ms|e l|u|]; cbn [lbind]; try exact Logic.I.
  - constructor; [exact L|exact IH].
  - destruct IH as (f' & I & B). exists f'. split; [right; exact I|exact B].
Qed.

Definition each (files : list file) (ms : list lmodule) (P : Z -> file -> lmodule -> Prop) : Prop :=
  zlen ms = zlen files /\ forall i f lm, znth files i = Some f -> znth ms i = Some lm -> P i f lm.
Lemma each_set : forall files ms P i lm', each files ms P -> 0 <= i < zlen ms ->
  forall Q : Z -> file -> lmodule -> Prop, (forall f, znth files i = Some f -> Q i f lm') -> (forall j f lm, j <> i -> P j f lm -> Q j f lm) -> each files (zset i lm' ms) Q.
Proof.
  intros files ms P i lm' [L E] R Q QI QO. split; [rewrite zlen_zset; exact L|]. intros j f lm F M. destruct (Z.eq_dec j i) as [->|N].
  - rewrite znth_zset_same in M by exact R. injection M as <-. apply QI. exact F.
  - rewrite znth_zset_other in M by congruence. apply QO; [exact N|]. apply E; assumption.
Qed.
Definition ready_file (f : file) (lm : lmodule) : Prop := exists src, reads (snd f) src /\ ready (fst f) (snd f) src lm.
Definition finished_file (f : file) (lm : lmodule) : Prop := exists src, reads (snd f) src /\ finished (fst f) (snd f) src lm.

Lemma firsts_loc : forall sk ws fuel files order ms, NoDup order ->
  each files ms (fun i f lm => (In i order -> loaded_file f lm) /\ (~ In i order -> ready_file f lm)) ->
  match lfirst_passes fuel order ms with
  | LOk ms' => each files ms' (fun _ f lm => ready_file f lm)
  | LErr e l => exists f src, In f files /\ reads (snd f) src /\ bad_pass sk ws (fst f) (snd f) src e l
  | _ => True
  end.
Proof.
  intros sk ws fuel files. induction order as [|i order IH]; intros ms N E; cbn [lfirst_passes].
  - destruct E as [L E]. split; [exact L|]. intros i f lm F M. apply (E i f lm F M). intros [].
  - destruct (znth ms i) as [m|] eqn:M; [|exact Logic.I]. pose proof (znth_some _ _ _ _ M) as R. inversion N as [|? ? NI N']; subst.
    destruct (znth_in_range _ files i) as [f F]; [rewrite <- (proj1 E); exact R|].
    destruct (proj1 (proj2 E i f m F M) (or_introl eq_refl)) as (P & LD & src & RD & G).
    pose proof (first_loc sk ws (fst f) (snd f) fuel m P LD src RD G) as FL.
    destruct (lrun_first_pass fuel m) as [m'|e l|u|]; cbn [lbind]; try exact Logic.I.
    2: { exists f, src. split; [eapply znth_in; exact F|auto]. }
    apply IH; [exact N'|]. apply (each_set _ _ _ _ _ E R).
    + intros f0 F0. rewrite F in F0. injection F0 as <-. split; [intros X; destruct (NI X)|]. intros _. exists src. auto.
    + intros j f0 lm J [A B]. split; [intros X; apply A; right; exact X|]. intros X. apply B. intros [Y|Y]; [congruence|auto].
Qed.

Lemma seconds_loc : forall sk ws names files order ms, NoDup order ->
  each files ms (fun i f lm => (In i order -> ready_file f lm) /\ (~ In i order -> finished_file f lm)) ->
  match lsecond_passes order names ms with
  | LOk ms' => each files ms' (fun _ f lm => finished_file f lm)
  | LErr e l => exists f src, In f files /\ reads (snd f) src /\ placed sk ws (fst f) (snd f) src e l
  | _ => True
  end.
Proof.
  intros sk ws names files. induction order as [|i order IH]; intros ms N E; cbn [lsecond_passes].
  - destruct E as [L E]. split; [exact L|]. intros i f lm F M. apply (E i f lm F M). intros [].
  - destruct (znth ms i) as [m|] eqn:M; [|exact Logic.I]. pose proof (znth_some _ _ _ _ M) as R. inversion N as [|? ? NI N']; subst.
    destruct (znth_in_range _ files i) as [f F]; [rewrite <- (proj1 E); exact R|].
    destruct (proj1 (proj2 E i f m F M) (or_introl eq_refl)) as (src & RD & RE).
    pose proof (second_loc sk ws (fst f) (snd f) src (fun cur => assembler_ctx (zset i cur (map lm_mod ms)) names) m (fun cur => assembler_looks_up _ _) RE) as FL.
    destruct (lrun_second_pass _ m) as [m'|e l|u|]; cbn [lbind]; try exact Logic.I.
    2: { exists f, src. split; [eapply znth_in; exact F|auto]. }
    apply IH; [exact N'|]. apply (each_set _ _ _ _ _ E R).
    + intros f0 F0. rewrite F in F0. injection F0 as <-. split; [intros X; destruct (NI X)|]. intros _. exists src. auto.
    + intros j f0 lm J [A B]. split; [intros X; apply A; right; exact X|]. intros X. apply B. intros [Y|Y]; [congruence|auto].
Qed.

Lemma modules_loc : forall sk names (files : list file) order ws ms rm log, NoDup order -> Forall (fun f => fst f <> ""%string) files ->
  holds rm log -> (forall cs v x, In (cs, v) log -> covers cs x -> In x (flat_map touched ws)) ->
  each files ms (fun i f lm => In i order -> finished_file f lm) ->
  match lassemble_modules sk order names ws ms rm with
  | (ws', LErr e l) => (exists f src, In f files /\ reads (snd f) src /\ placed sk ws' (fst f) (snd f) src e l) \/
      (e = E_overlap /\ l = no_location /\ ~ NoDup (flat_map touched ws'))
  | _ => True
  end.
Proof.
  intros sk names files. induction order as [|i order IH]; intros ws ms rm log N NE HO LG E; cbn [lassemble_modules]; [exact Logic.I|].
  destruct (znth ms i) as [m|] eqn:M; [|exact Logic.I]. pose proof (znth_some _ _ _ _ M) as R. inversion N as [|? ? NI N']; subst.
  destruct (znth_in_range _ files i) as [f F]; [rewrite <- (proj1 E); exact R|]. pose proof (znth_in _ _ _ _ F) as FI.
  destruct (proj2 E i f m F M (or_introl eq_refl)) as (src & RD & FN).
  pose proof (module_loc sk (fst f) (snd f) src (assembler_ctx (map lm_mod ms) names) ws m (assembler_looks_up _ _) (proj1 (Forall_forall _ _) NE f FI) FN) as ML.
  destruct (lmodule_assemble sk (assembler_ctx (map lm_mod ms) names) ws m) as [ws1 [m'|e l|u|]]; cbn [lwbind]; try exact Logic.I.
  2: { left. exists f, src. auto. }
  destruct ML as (rs & -> & CN & CV). destruct (rm_insert rm (md_owned (lm_mod m')) i) as [ok rm'] eqn:RI.
  destruct (insert_exact _ _ _ _ _ _ _ HO CN RI) as (OK & HO1 & _). destruct ok.
  - apply (IH _ _ _ _ N' NE (HO1 eq_refl)).
    + intros cs v x [I|I] C; rewrite flat_map_app; apply in_or_app; [|left; eapply LG; eassumption]. injection I as <- <-. right. apply CV. exact C.
    + apply (each_set _ _ _ _ _ E R); [intros f0 _ X; destruct (NI X)|]. intros j f0 lm J A X. apply A. right. exact X.
  - right. split; [reflexivity|]. split; [reflexivity|]. intros ND. assert (false = true); [|discriminate]. apply OK.
    intros cs' w x I C C'. rewrite flat_map_app in ND. apply nodup_app_iff in ND. destruct ND as (_ & _ & DJ). apply (DJ x); [eapply LG; eassumption|apply CV; exact C].
Qed.

(** ** Ordering. *)
Lemma exports_loc : forall i ids names, NoDup (map fst ids) ->
  match ladd_exports i ids names with
  | LOk names' => names' = names ++ map (fun x => (fst x, (i, snd x))) ids
  | LErr e l => e = E_duplicate /\ exists id l' j, In (id, (j, l)) names /\ In (id, l') ids
  | _ => True
  end.
Proof.
  intros i. induction ids as [|[id l] ids IH]; intros names N; cbn [ladd_exports map fst snd]; [symmetry; apply app_nil_r|].
  cbn in N. inversion N as [|? ? NI N']; subst. destruct (assoc_id id names) as [[j first]|] eqn:A.
  - cbn. rewrite update_no. split; [reflexivity|]. exists id, l, j. split; [eapply assoc_id_in; exact A|left; reflexivity].
  - specialize (IH (names ++ [(id, (i, l))]) N'). destruct (ladd_exports i ids (names ++ [(id, (i, l))])) as [names'|e lo|u|]; try exact Logic.I.
    + rewrite IH, <- app_assoc. reflexivity.
    + destruct IH as (-> & id' & l' & j & I1 & I2). split; [reflexivity|]. exists id', l', j. split; [|right; exact I2].
      apply in_app_iff in I1. destruct I1 as [I1|[I1|[]]]; [exact I1|]. injection I1 as <- _ _. destruct NI. apply in_map_iff. exists (id, l'). auto.
Qed.
Definition named_by (ms : list lmodule) (order : list Z) (names : list (fullid * (Z * location))) : Prop :=
  forall id i l, In (id, (i, l)) names -> In i order /\ exists lm, znth ms i = Some lm /\ In (id, l) (lexported_names lm).
Definition clash (ms : list lmodule) (l : location) : Prop :=
  exists i j lm lm' id l', i <> j /\ znth ms i = Some lm /\ znth ms j = Some lm' /\ In (id, l) (lexported_names lm) /\ In (id, l') (lexported_names lm').
Lemma sweep_loc : forall all, Forall (fun lm => NoDup (map fst (lexported_names lm))) all -> forall ms i order names found, 0 <= i ->
  (forall k lm, znth ms k = Some lm -> znth all (i + k) = Some lm) -> named_by all order names ->
  match lorder_sweep i ms order names found with
  | LOk (order', names', _) => named_by all order' names'
  | LErr e l => e = E_duplicate /\ clash all l
  | _ => True
  end.
Proof.
  intros all ND. induction ms as [|m ms IH]; intros i order names found I0 Z0 NB; cbn [lorder_sweep]; [exact NB|].
  assert (ZI : znth all i = Some m) by (rewrite <- (Z.add_0_r i); apply Z0; reflexivity).
  assert (ZT : forall k lm, znth ms k = Some lm -> znth all (i + 1 + k) = Some lm).
  { intros k lm H. pose proof (znth_some _ _ _ _ H). replace (i + 1 + k) with (i + (k + 1)) by lia. apply Z0. rewrite znth_cons by lia. replace (k + 1 - 1) with k by lia. exact H. }
  destruct (existsb (Z.eqb i) order) eqn:X; [apply IH; auto; lia|].
  assert (NO : ~ In i order).
  { intros Y. assert (existsb (Z.eqb i) order = true); [|congruence]. apply existsb_exists. exists i. split; [exact Y|apply Z.eqb_refl]. }
  destruct (forallb _ (md_deps (lm_mod m))); [|apply IH; auto; lia].
  pose proof (exports_loc i (lexported_names m) names) as EL. rewrite Forall_forall in ND. specialize (EL (ND m (znth_in _ _ _ _ ZI))).
  destruct (ladd_exports i (lexported_names m) names) as [names'|e l|u|]; cbn [lbind]; try exact Logic.I.
  - apply IH; [lia|exact ZT|]. subst names'. intros id j l I. apply in_app_iff in I. destruct I as [I|I].
    + destruct (NB id j l I) as [A B]. split; [apply in_or_app; auto|exact B].
    + apply in_map_iff in I. destruct I as ([id' l'] & E & I). injection E as <- <- <-. split; [apply in_or_app; right; left; reflexivity|eauto].
  - destruct EL as (-> & id & l' & j & I1 & I2). split; [reflexivity|]. destruct (NB id j l I1) as (A & lm & ZJ & B).
    exists j, i, lm, m, id, l'. split; [congruence|auto].
Qed.
Lemma order_loc : forall all, Forall (fun lm => NoDup (map fst (lexported_names lm))) all -> forall fuel order names, named_by all order names ->
  match lorder_loop fuel all order names with
  | LErr e l => (e = E_duplicate /\ clash all l) \/ (e = E_cycle /\ l = no_location)
  | _ => True
  end.
Proof.
  intros all ND. induction fuel as [|fuel IH]; intros order names NB; cbn [lorder_loop]; destruct (_ <? _); try exact Logic.I.
  pose proof (sweep_loc all ND all 0 order names false ltac:(lia) ltac:(intros k lm H; rewrite Z.add_0_l; exact H) NB) as SL.
  destruct (lorder_sweep 0 all order names false) as [[[order' names'] found]|e l|u|]; cbn [lbind]; try exact Logic.I.
  - destruct found; [apply IH; exact SL|]. right. auto.
  - left. exact SL.
Qed.

Lemma nodup_map_fst : forall (A B C : Type) (g : A -> C) (l : list (A * B)), (forall x y, g x = g y -> x = y) -> NoDup (map fst l) -> NoDup (map (fun x => g (fst x)) l).
Proof.
  intros A B C g l J. induction l as [|[a b] l IH]; intros N; [constructor|]. cbn in *. inversion N as [|? ? NI N']; subst. constructor; [|auto].
  intros I. apply in_map_iff in I. destruct I as ([a' b'] & E & I). cbn in E. apply J in E. subst a'. apply NI. apply in_map_iff. exists (a, b'). auto.
Qed.
Lemma globals_nodup : forall d, NoDup (keys d) -> NoDup (map fst (in_scope None d)).
Proof.
  induction d as [|[[sc n] t] d IH]; intros N; [constructor|]. cbn in N. inversion N as [|? ? NI N']; subst. unfold in_scope. cbn [flat_map]. fold (in_scope None d).
  destruct (scope_eqb None sc) eqn:S; [|apply IH; exact N']. apply scope_eqb_eq in S. subst sc. cbn. constructor; [|apply IH; exact N'].
  intros I. apply in_map_iff in I. destruct I as ([n' t'] & E & I). cbn in E. subst n'. apply in_scope_in in I. apply NI. unfold keys. apply in_map_iff. exists (None, n, t'). auto.
Qed.
Lemma loaded_exports : forall f lm, loaded_file f lm -> NoDup (map fst (lexported_names lm)) /\
  forall id l, In (id, l) (lexported_names lm) -> exists src mn n k, reads (snd f) src /\ module_named src mn /\ defined src None n k /\
    id = FullId (Some mn) n /\ l = line_of (fst f) k.
Proof.
  intros f lm (P & L & _). apply load_exact in L. destruct L as (src & name & R & F & _ & E).
  assert (EG : md_globals (lm_mod lm) = in_scope None (dlist src)) by (rewrite E; reflexivity).
  assert (EN : md_name (lm_mod lm) = name) by (rewrite E; reflexivity). unfold lexported_names. rewrite EG, EN, P. split.
  - rewrite map_map. cbn [fst]. apply (nodup_map_fst _ _ _ (fun n => FullId (Some name) n)); [intros x y H; congruence|]. apply globals_nodup. apply F.
  - intros id l I. apply in_map_iff in I. destruct I as ([n k] & EQ & I). cbn [fst snd] in EQ. injection EQ as <- <-.
    exists src, name, n, k. split; [exact R|]. split; [apply names_ok_named; [intros s; eapply reads_modules; exact R|apply F]|].
    split; [apply defined_dlist; apply in_scope_in; exact I|]. auto.
Qed.

Lemma znth_nth_error : forall A (l : list A) i x, znth l i = Some x -> nth_error l (Z.to_nat i) = Some x.
Proof. intros A l i x H. unfold znth in H. destruct (i <? 0); [discriminate H|exact H]. Qed.
Lemma placed_reported : forall sk files ws e l f src, In f files -> reads (snd f) src -> placed sk ws (fst f) (snd f) src e l -> reported sk files ws e l.
Proof. intros sk files ws e l [path f] src I R (k & n & -> & S & B). eapply rep_statement; eassumption. Qed.

Theorem errors_located : forall fuel sk (files : list file) ws e l, Forall (fun f => fst f <> ""%string) files ->
  lassemble fuel sk files = (ws, LErr e l) -> reported sk files ws e l.
Proof.
  intros fuel sk files ws e l NE H. unfold lassemble in H. pose proof (files_loc files) as FL.
  destruct (lload_files files) as [ms|e0 l0|u|]; cbn [lwbind] in H; try discriminate H.
  2: { injection H as <- <- <-. destruct FL as ([path f] & I & B). cbn [fst snd] in B. destruct B as [(n & text & FB & [->|(-> & HC & EE)])|src b n -> R OP MX ST ->].
    - eapply rep_line; eassumption.
    - eapply rep_convention; eassumption.
    - eapply rep_open; try eassumption. reflexivity. }
  assert (ND : Forall (fun lm => NoDup (map fst (lexported_names lm))) ms).
  { clear -FL. induction FL as [|f lm fs ms L FL IH]; constructor; [apply (loaded_exports _ _ L)|exact IH]. }
  pose proof (order_loc ms ND (List.length ms) [] [] ltac:(intros id i l0 [])) as OL. fold (lfind_assembly_order ms) in OL. pose proof (e_find ms) as EF.
  destruct (lfind_assembly_order ms) as [[order lnames]|e0 l0|u|]; cbn [lwbind] in H; try discriminate H.
  2: { injection H as <- <- <-. destruct OL as [[-> C]|[-> ->]]; [|apply rep_cycle; reflexivity].
    destruct C as (i & j & lm & lm' & id & l' & NEQ & ZI & ZJ & I1 & I2).
    destruct (Forall2_znth' _ _ _ _ _ FL _ _ ZI) as (f & FI & LI). destruct (Forall2_znth' _ _ _ _ _ FL _ _ ZJ) as (f' & FJ & LJ).
    destruct (proj2 (loaded_exports _ _ LI) _ _ I1) as (src & mn & n & k & R & MN & D & EID & ->).
    destruct (proj2 (loaded_exports _ _ LJ) _ _ I2) as (src' & mn' & n' & k' & R' & MN' & D' & EID' & _).
    rewrite EID in EID'. injection EID' as <- <-. destruct f as [path f], f' as [path' f']. cbn [fst snd] in *.
    pose proof (znth_some _ _ _ _ ZI). pose proof (znth_some _ _ _ _ ZJ).
    eapply rep_duplicate with (i := Z.to_nat i) (j := Z.to_nat j); [reflexivity|apply znth_nth_error; exact FI|apply znth_nth_error; exact FJ|lia|eassumption..]. }
  cbn [erase bind] in EF. destruct (order_all _ _ _ (eq_sym EF)) as [N IO]. rewrite LocationProofs.zlen_map in IO.
  pose proof (Forall2_zlen _ _ _ _ _ FL) as ZL.
  assert (E0 : each files ms (fun i f lm => (In i order -> loaded_file f lm) /\ (~ In i order -> ready_file f lm))).
  { split; [exact ZL|]. intros i f lm F M. split.
    - intros _. destruct (Forall2_znth _ _ _ _ _ FL _ _ F) as (lm' & M' & L). rewrite M in M'. injection M' as <-. exact L.
    - intros X. destruct X. apply IO. eapply znth_some. exact M. }
  pose proof (firsts_loc sk [] fuel files order ms N E0) as F1.
  destruct (lfirst_passes fuel order ms) as [ms1|e0 l0|u|]; cbn [lwbind] in H; try discriminate H.
  2: { injection H as <- <- <-. destruct F1 as (f & src & I & R & [B|(-> & -> & before & labels & s & E & X)]); [eapply placed_reported; eassumption|].
    destruct f as [path f]. eapply rep_past_end; try eassumption. reflexivity. }
  assert (E1 : each files ms1 (fun i f lm => (In i order -> ready_file f lm) /\ (~ In i order -> finished_file f lm))).
  { destruct F1 as [Z1 F1]. split; [exact Z1|]. intros i f lm F M. split; [intros _; eapply F1; eassumption|]. intros X. destruct X. apply IO.
    rewrite ZL, <- Z1. eapply znth_some. exact M. }
  pose proof (seconds_loc sk [] (plain_names lnames) files order ms1 N E1) as F2.
  destruct (lsecond_passes order (plain_names lnames) ms1) as [ms2|e0 l0|u|]; cbn [lwbind] in H; try discriminate H.
  2: { injection H as <- <- <-. destruct F2 as (f & src & I & R & B). eapply placed_reported; eassumption. }
  assert (E2 : each files ms2 (fun i f lm => In i order -> finished_file f lm)).
  { destruct F2 as [Z2 F2]. split; [exact Z2|]. intros i f lm F M _. eapply F2; eassumption. }
  pose proof (modules_loc sk (plain_names lnames) files order [] ms2 (RangeMap [] []) [] N NE (inserts_holds _ _ _ in_none) ltac:(intros cs v x []) E2) as F3.
  destruct (lassemble_modules sk order (plain_names lnames) [] ms2 (RangeMap [] [])) as [ws3 [[ms3 rm]|e0 l0|u|]]; cbn [lwbind] in H; try discriminate H.
  injection H as <- <- <-. destruct F3 as [(f & src & I & R & B)|(-> & -> & ND')]; [eapply placed_reported; eassumption|].
  apply rep_modules; [reflexivity|exact ND'].
Qed.

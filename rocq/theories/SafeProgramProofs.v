(** Undefined behaviour of a program has one of the listed causes: loading and the passes. *)
From Verif Require Import Base ModelNumeric ModelAddress ModelExpr ModelMnemonic ModelAMode ModelOpcode ModelState ModelInstr ModelToken
  ModelStatement ModelParse ModelMap ModelRanges ModelModule ModelAssembler SpecArith SpecText SpecScope SpecRanges SpecLayout SpecAssemble SpecSafe
  BaseProofs MapProofs ArithProofs RangesProofs StateProofs TokenProofs ParseProofs OrderProofs LoadProofs ScopeProofs PassProofs LayoutProofs
  AssembleProofs ProgramProofs TermProofs SafeProofs SafeRunProofs.
Open Scope list_scope.
Open Scope Z_scope.

(** ** Loading. *)
Lemma load_lines_safe : forall files file lines name src pending, In file files -> incl lines file -> fine_source name src ->
  safe (ub_cause files) (load_lines (loaded name src pending) lines).
Proof.
  intros files file lines. induction lines as [|s lines IH]; intros name src pending F I L; cbn [load_lines]; [exact Logic.I|].
  destruct (tokenize_shape s) as [(body & T & E)|(e & T)]; rewrite T; cbn [bind]; [|exact Logic.I].
  assert (EN : ended (body ++ [TEol])) by (exists body; auto).
  pose proof (parse_safe _ EN) as P. destruct (parse (body ++ [TEol])) as [es|e|u|]; cbn [bind]; [|exact Logic.I| |destruct P].
  - pose proof (load_entities_spec es name src pending L) as LE.
    destruct (load_entities (loaded name src pending) es) as [ld|e|u|]; cbn [bind]; [|exact Logic.I|destruct LE|destruct LE].
    destruct LE as (name' & pending' & -> & L'). apply IH; [exact F|intros x X; apply I; right; exact X|exact L'].
  - destruct P as [-> O]. cbn. eapply c_parse; [exact F|apply I; left; reflexivity|exact T|exact O].
Qed.
Lemma load_safe : forall files file, In file files -> safe (ub_cause files) (load_asm_file file).
Proof.
  intros files file F. unfold load_asm_file. apply safe_bind.
  - exact (load_lines_safe files file file "" [] [] F (incl_refl _) fine_empty).
  - intros ld _. destruct (ld_scopes ld); exact I.
Qed.

(** ** What the passes keep. *)
Definition fair_value (files : list (list string)) (s : statement) (v : Z) : Prop :=
  (exists d e env, s = SDir d /\ d_name d = D_equ /\ d_arg d = Some e /\ plausible files env /\ means env e v) \/
  (~ is_dir D_equ s /\ 0 <= v <= 2 ^ 24 /\ (0 < stmt_size s -> v < 2 ^ 24)).
Definition fair_line (files : list (list string)) (l : line) : Prop :=
  from_source files (ln_stmt l) /\ forall v, ln_value l = Some v -> fair_value files (ln_stmt l) v.
Definition fair_indices (m : module) : Prop :=
  forall n i, In (n, i) (md_globals m) \/ (exists l, In l (md_lines m) /\ In (n, i) (ln_locals l)) -> 0 <= i < zlen (md_lines m).
Definition sane (files : list (list string)) (m : module) : Prop :=
  Forall (fair_line files) (md_lines m) /\ fair_indices m /\ canonical (md_owned m).

Lemma loaded_sane : forall files file m, In file files -> load_asm_file file = Ok m ->
  sane files m /\ (forall l, In l (md_lines m) -> in_source files (ln_stmt l)).
Proof.
  intros files file m F H. apply load_exact in H. destruct H as (src & name & R & _ & _ & ->).
  assert (SRC : forall l, In l (md_lines (module_of name src)) -> in_source files (ln_stmt l) /\ ln_value l = None /\
            forall n i, In (n, i) (ln_locals l) -> exists sc, In (sc, n, i) (dlist src)).
  { intros l L. change (md_lines (module_of name src)) with (mk_lines (dlist src) 0 [] src) in L. apply in_znth in L. destruct L as [k L].
    apply mk_lines_nth in L. destruct L as (b & la & s & af & -> & _ & ->). split.
    - exists file, (b ++ (la, s) :: af), la. split; [exact F|]. split; [exact R|]. apply in_or_app. right. left. reflexivity.
    - split; [reflexivity|]. cbn [ln_locals]. intros n i I. apply in_scope_in in I. eauto. }
  split; [|intros l L; apply SRC; exact L]. split; [|split].
  - apply Forall_forall. intros l L. destruct (SRC l L) as (S & V & _). split; [left; exact S|]. intros v E. congruence.
  - intros n i I. assert (D : exists sc, In (sc, n, i) (dlist src)).
    { destruct I as [I|(l & L & I)]; [exists None; apply in_scope_in; exact I|]. destruct (SRC l L) as (_ & _ & K). exact (K n i I). }
    destruct D as [sc D]. apply defined_dlist in D. destruct D as [p D]. apply label_at_range in D.
    change (md_lines (module_of name src)) with (mk_lines (dlist src) 0 [] src). rewrite mk_lines_len. exact D.
  - change (md_owned (module_of name src)) with (@nil chunk). constructor.
Qed.

Lemma assoc_string_in : forall A n (l : list (string * A)) i, assoc_string n l = Some i -> exists n', In (n', i) l.
Proof.
  intros A n l. induction l as [|[k v] l IH]; intros i H; cbn in H; [discriminate H|].
  destruct (String.eqb _ _); [injection H as ->; exists k; left; reflexivity|]. destruct (IH i H) as [n' I]. exists n'. right. exact I.
Qed.
Lemma index_fair : forall m n sc i, fair_indices m -> local_index m n sc = Ok i -> 0 <= i < zlen (md_lines m).
Proof.
  intros m n sc i F H. apply local_index_search in H. unfold scope_maps in H.
  assert (S : exists l, In l (map (fun i => match znth (md_lines m) i with Some l => ln_locals l | None => [] end) sc ++ [md_globals m]) /\
                exists n', In (n', i) l).
  { revert H. generalize (map (fun i => match znth (md_lines m) i with Some l => ln_locals l | None => [] end) sc ++ [md_globals m]) as ll.
    induction ll as [|l ll IH]; intros H; cbn in H; [discriminate H|]. destruct (assoc_string n l) as [j|] eqn:A.
    - injection H as ->. exists l. split; [left; reflexivity|]. eapply assoc_string_in. exact A.
    - destruct (IH H) as (l' & L & K). exists l'. split; [right; exact L|exact K]. }
  destruct S as (l & L & n' & I). apply (F n'). apply in_app_or in L. destruct L as [L|[<-|[]]]; [right|left; exact I].
  apply in_map_iff in L. destruct L as (j & <- & _). destruct (znth (md_lines m) j) as [l|] eqn:E; [|destruct I].
  exists l. split; [eapply znth_in; exact E|exact I].
Qed.

(** ** The control flow pass. *)
Definition tame (P : ub -> Prop) {A} (r : res A) : Prop := match r with UB u => P u | _ => True end.
Lemma tame_bind : forall P A B (x : res A) (f : A -> res B), tame P x -> (forall a, x = Ok a -> tame P (f a)) -> tame P (bind x f).
Proof. intros P A B [a|e|u|] f H K; cbn; auto. Qed.
Lemma safe_tame : forall P A (r : res A), safe P r -> tame P r.
Proof. intros P A [a|e|u|] H; cbn in *; auto. Qed.

Definition fair_states (files : list (list string)) (n : Z) (st : omap estate) : Prop :=
  forall k s, In (k, s) st -> 0 <= k <= n /\ good (leaves_m files) (leaves_x files) s.
Lemma add_state_fair : forall files n k s st, 0 <= k <= n -> good (leaves_m files) (leaves_x files) s -> fair_states files n st ->
  fair_states files n (add_state k s st).
Proof.
  intros files n k s st K G F j t I. unfold add_state, om_merge in I. destruct (om_find k st) as [old|] eqn:E;
    apply om_set_in in I; destruct I as [[-> ->]|I]; auto.
  apply om_find_in, F in E. split; [exact K|apply good_merge; apply E].
Qed.
Lemma stmt_safe : forall files s st, in_source files s -> good (leaves_m files) (leaves_x files) st ->
  safe (ub_cause files) (stmt_execute s st).
Proof.
  intros files [i|d] st S G; cbn [stmt_execute]; [apply execute_safe; assumption|]. unfold directive_execute. destruct (d_name d); exact I.
Qed.
Lemma stmt_good : forall files s st st', in_source files s -> good (leaves_m files) (leaves_x files) st ->
  stmt_execute s st = Ok st' -> good (leaves_m files) (leaves_x files) st'.
Proof.
  intros files [i|d] st st' S G H; cbn [stmt_execute] in H.
  - unfold execute in H. eapply good_execute; [exact H|eapply source_plain; exact S|exact G].
  - pose proof (source_plain _ _ S) as P. cbn in P. unfold directive_execute in H. destruct (d_name d); try discriminate H; injection H as <-; try exact G.
    apply good_with_flags; [apply plain_good; exact P|exact G].
Qed.
Lemma branch_safe : forall files i st, in_source files (SInstr i) -> good (leaves_m files) (leaves_x files) st ->
  safe (ub_cause files) (execute_branch i st).
Proof.
  intros files i st S G. unfold execute_branch. apply safe_bind; [apply execute_safe; assumption|]. intros; exact I.
Qed.
Lemma branch_good : forall files i st st', in_source files (SInstr i) -> good (leaves_m files) (leaves_x files) st ->
  execute_branch i st = Ok st' -> good (leaves_m files) (leaves_x files) st'.
Proof.
  intros files i st st' S G H. unfold execute_branch in H. bok H as s1 E. pose proof (stmt_good files (SInstr i) st s1 S G E) as G1.
  assert (C : forall b, good (leaves_m files) (leaves_x files) (upd_flags (set_c b) s1)).
  { intros b. apply good_with_flags; [apply good_set_c; apply good_f; exact G1|exact G1]. }
  injection H as <-. destruct (i_mnem i); try exact G1; apply C.
Qed.

Definition all_source (files : list (list string)) (ls : list line) : Prop := forall l, In l ls -> in_source files (ln_stmt l).
Lemma zset_source : forall files ls k l s, all_source files ls -> znth ls k = Some l -> all_source files (zset k (ln_visit s l) ls).
Proof.
  intros files ls k l s A E x X. apply znth_split in E. destruct E as (a & b & -> & K). rewrite <- K, zset_mid in X.
  apply in_app_or in X. destruct X as [X|[<-|X]].
  - apply A. apply in_or_app. left. exact X.
  - apply (A l). apply in_or_app. right. left. reflexivity.
  - apply A. apply in_or_app. right. right. exact X.
Qed.

Lemma ok_inj : forall A (a b : A), Ok a = Ok b -> a = b.
Proof. intros A a b H. congruence. Qed.
Lemma step_safe : forall files m ls st, fair_indices m -> zlen ls = zlen (md_lines m) -> all_source files ls -> fair_states files (zlen ls) st ->
  safe (ub_cause files) (first_pass_step m ls st) /\
  forall ls' st', first_pass_step m ls st = Ok (ls', st') ->
    zlen ls' = zlen ls /\ all_source files ls' /\ fair_states files (zlen ls) st'.
Proof.
  intros files m ls [|[k cur] rest] FI LEN A F; [split; [exact I|]; intros ls' st' H; injection H as <- <-; auto|].
  destruct (F k cur (or_introl eq_refl)) as [K G]. 
  unfold first_pass_step. destruct (Z.eqb_spec k (zlen ls)) as [E|NE]; [split; [exact I|discriminate]|].
  destruct (znth_in_range _ ls k ltac:(lia)) as [l L]. rewrite L.
  destruct (ln_reached l && es_eqb (ln_in l) cur).
  { split; [exact I|]. intros ls' st' H. injection H as <- <-. split; [reflexivity|]. split; [exact A|].
    intros a b AB. apply F. right. exact AB. }
  assert (S : in_source files (ln_stmt l)) by (apply A; eapply znth_in; exact L).
  pose proof (zset_source files ls k l cur A L) as A'.
  assert (LEN' : zlen (zset k (ln_visit cur l) ls) = zlen ls) by apply zlen_zset.
  cbv zeta. pose proof (stmt_safe files _ _ S G) as SS. pose proof (fun st' => stmt_good files _ _ st' S G) as SG.
  destruct (stmt_execute (ln_stmt l) cur) as [next|e|u|]; cbn [bind].
  2: { split; [exact I|discriminate]. } 2: { split; [exact SS|discriminate]. } 2: destruct SS.
  specialize (SG next eq_refl).
  match goal with |- context [?t] => match t with (if stmt_is_exit (ln_stmt l) then _ else _) =>
    assert (F1 : fair_states files (zlen ls) t);
      [destruct (stmt_is_exit (ln_stmt l)); [exact F|]; apply add_state_fair; [lia|exact SG|exact F]|];
    revert F1; generalize t
  end end. intros st1 F1.
  assert (PLAIN : forall ls' st', Ok (zset k (ln_visit cur l) ls, st1) = Ok (ls', st') ->
            zlen ls' = zlen ls /\ all_source files ls' /\ fair_states files (zlen ls) st').
  { intros ls' st' H. apply ok_inj in H. injection H as <- <-. split; [exact LEN'|]. split; [exact A'|exact F1]. }
  destruct (ln_stmt l) as [i|d] eqn:ST; [|split; [exact I|exact PLAIN]].
  destruct (is_local_branch i); [|split; [exact I|exact PLAIN]].
  destruct (simple_identifier_opt (i_arg1 i)) as [target|]; [|split; [exact I|discriminate]].
  pose proof (index_fair m target (ln_scopes l)) as IX.
  destruct (local_index m target (ln_scopes l)) as [idx|e|u|]; [|split; [exact I|intros ls' st' H; discriminate H]..].
  specialize (IX idx FI eq_refl). pose proof (branch_safe files i cur S G) as BS. pose proof (fun st' => branch_good files i cur st' S G) as BG.
  destruct (execute_branch i cur) as [bst|e|u|]; cbn [bind].
  2: { split; [exact I|discriminate]. } 2: { split; [exact BS|discriminate]. } 2: destruct BS.
  split; [exact I|]. intros ls' st' H. injection H as <- <-. split; [exact LEN'|]. split; [exact A'|].
  apply add_state_fair; [lia|apply BG; reflexivity|exact F1].
Qed.
Lemma loop_tame : forall files m fuel ls st, fair_indices m -> zlen ls = zlen (md_lines m) -> all_source files ls -> fair_states files (zlen ls) st ->
  tame (ub_cause files) (first_pass_loop fuel m ls st).
Proof.
  intros files m. induction fuel as [|f IH]; intros ls [|p st] FI LEN A F; cbn [first_pass_loop]; try exact I.
  destruct (step_safe files m ls (p :: st) FI LEN A F) as [S K].
  destruct (first_pass_step m ls (p :: st)) as [[ls1 st1]|e|u|]; cbn [bind]; [|exact I|exact S|exact I].
  destruct (K _ _ eq_refl) as (L1 & A1 & F1). apply IH; [exact FI|congruence|exact A1|rewrite L1; exact F1].
Qed.
Lemma entry_good : forall files d, in_source files (SDir d) -> d_name d = D_entry ->
  good (leaves_m files) (leaves_x files) (estate_of_flags (d_flags d)).
Proof.
  intros files d S D. pose proof (source_plain _ _ S) as P. cbn in P. destruct P as (PM & PX & _).
  unfold good, estate_of_flags. cbn. split; [exact I|]. split; [exact I|]. split; [exact I|]. split; [|constructor].
  split; intros H.
  - exists d. split; [exact S|]. split; [exact D|]. revert H PM. cbn. destruct (fl_m (d_flags d)); cbn; destruct (fl_e (d_flags d)); cbn; congruence.
  - exists d. split; [exact S|]. split; [exact D|]. revert H PX. cbn. destruct (fl_x (d_flags d)); cbn; destruct (fl_e (d_flags d)); cbn; congruence.
Qed.
Lemma entries_fair : forall files n ls i st, all_source files ls -> 0 <= i -> i + zlen ls <= n -> fair_states files n st ->
  fair_states files n (entry_states i ls st).
Proof.
  intros files n ls. induction ls as [|l ls IH]; intros i st A I N F; cbn [entry_states]; [exact F|].
  rewrite zlen_cons in N. pose proof (zlen_nonneg _ ls). apply IH; [intros x X; apply A; right; exact X|lia|lia|].
  pose proof (A l (or_introl eq_refl)) as S. destruct (ln_stmt l) as [j|d]; [exact F|].
  destruct (d_name d) eqn:D; try exact F. apply add_state_fair; [lia|apply entry_good; assumption|exact F].
Qed.

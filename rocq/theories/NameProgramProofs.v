(** Errors about names in a whole program. *)
From Coq Require Import Lia.
From Verif Require Import BaseProofs ModelNumeric ModelAddress ModelMnemonic ModelExpr ModelAMode ModelOpcode
  ModelState ModelInstr ModelToken ModelStatement ModelParse ModelMap ModelModule ModelAssembler ModelRom ModelTools ModelLocation ModelRomText ModelParseText ModelFlagText ModelNameText
  SpecScope SpecInstr SpecLayout SpecAssemble SpecSink SpecLocation SpecText SpecParseText SpecFlagText SpecNameText NameProofs LocationProofs LocatedProofs BlameProofs ParseTextProofs PlaceProofs MismatchProofs FlagTextProofs.
Open Scope string_scope.
Open Scope list_scope.
Open Scope Z_scope.

(** ** Errors that only names give. *)
Definition name_kind (e : err) : bool := match e with E_undefined | E_before_def | E_null_lookup => true | _ => false end.
Definition quiet {A} (r : res A) : Prop := forall e, r = Err e -> name_kind e = false.
Lemma quiet_bind : forall A B (r : res A) (f : A -> res B), quiet r -> (forall a, quiet (f a)) -> quiet (bind r f).
Proof. intros A B [a|e|u|] f R F x H; cbn [bind] in H; [exact (F a x H)|injection H as <-; exact (R e eq_refl)|discriminate..]. Qed.
Lemma quiet_ok : forall A (a : A), quiet (Ok a).
Proof. intros A a e H. discriminate H. Qed.
Lemma quiet_ub : forall A u, quiet (@UB A u).
Proof. intros A u e H. discriminate H. Qed.
Lemma quiet_err : forall A e, name_kind e = false -> quiet (@Err A e).
Proof. intros A e K x H. injection H as <-. exact K. Qed.
Lemma quiet_fuel : forall A, quiet (@OutOfFuel A).
Proof. intros A e H. discriminate H. Qed.
Ltac sl := repeat first [apply quiet_ok|apply quiet_ub|apply quiet_fuel|apply quiet_err; reflexivity|apply quiet_bind; [|intros]|match goal with |- quiet (match ?x with _ => _ end) => destruct x end].
Lemma quiet_int : forall z, quiet (int_result z).
Proof. intros z. unfold int_result. sl. Qed.
Lemma quiet_eval : forall c e, ids e = [] -> quiet (eval c e).
Proof.
  intros c e N. induction e as [v t|id t|op l IHl r IHr|op e IH|l e IH]; cbn [eval ids] in *.
  - apply quiet_ok.
  - discriminate N.
  - apply app_eq_nil in N. destruct N as [NL NR]. specialize (IHl NL). specialize (IHr NR).
    destruct (eval c l) as [a|e1|u|], (eval c r) as [b|e2|u2|]; try apply quiet_ub; try apply quiet_fuel; try exact IHl; try exact IHr; try (intros x H; injection H as <-; first [exact (IHl _ eq_refl)|exact (IHr _ eq_refl)]).
    unfold apply_binop. destruct op; try apply quiet_int. destruct (b =? 0); [apply quiet_err; reflexivity|apply quiet_int].
  - apply quiet_bind; [exact (IH N)|]. intros a. unfold apply_unop. destruct op; try apply quiet_ok; apply quiet_int.
  - exact (IH N).
Qed.
Lemma quiet_eval_opt : forall c e, opt_ids e = [] -> quiet (eval_opt c e).
Proof. intros c [e|] N; cbn [eval_opt opt_ids] in *; [apply quiet_eval, N|apply quiet_err; reflexivity]. Qed.
Lemma quiet_maybe : forall c e, quiet (maybe_arg c e).
Proof. intros c e. unfold maybe_arg. sl. Qed.
Lemma quiet_add : forall a b r, quiet (rv_add a b r).
Proof. intros a b r. unfold rv_add. repeat first [apply quiet_int|progress sl]. Qed.
Lemma quiet_pull : forall s, quiet (pull_a s) /\ quiet (pull_x s) /\ quiet (pull_y s).
Proof.
  intros s. assert (P : forall t b k, quiet (pull_reg t b k)).
  { intros t b k. unfold pull_reg. assert (V : forall k, quiet (pull_varsize k)) by (intros k0; unfold pull_varsize; sl).
    assert (W : forall v, quiet (sv_value v)) by (intros v; unfold sv_value; sl). repeat first [apply V|apply W|progress sl]. }
  unfold pull_a, pull_x, pull_y. repeat split; (apply quiet_bind; [apply P|intros [r k]; apply quiet_ok]).
Qed.
Lemma quiet_bytes : forall a c i, opt_ids (i_arg1 i) = [] -> opt_ids (i_arg2 i) = [] -> quiet (instr_bytes a c i).
Proof.
  intros a c i N1 N2. unfold instr_bytes. destruct (match i_mnem i with PM_add => _ | PM_sub => _ | _ => _ end) as [prefix tm].
  destruct (encode_opcode tm (i_mode i)); [|apply quiet_err; reflexivity]. cbv zeta.
  assert (E1 : quiet (eval_opt c (i_arg1 i))) by (apply quiet_eval_opt, N1). assert (E2 : quiet (eval_opt c (i_arg2 i))) by (apply quiet_eval_opt, N2).
  assert (M : forall v, quiet (mk_address v)) by (intros v; unfold mk_address; sl).
  assert (S : forall x y, quiet (subtract_wrapped x y)) by (intros x y; unfold subtract_wrapped; sl).
  destruct (i_mode i); repeat first [apply E1|apply E2|apply M|apply S|progress sl].
Qed.
Lemma quiet_list : forall d c l, flat_map ids l = [] -> quiet (encode_list d c l).
Proof.
  intros d c l. induction l as [|e l IH]; intros N; cbn [encode_list flat_map] in *; [apply quiet_ok|]. apply app_eq_nil in N. destruct N as [N1 N2].
  apply quiet_bind; [apply quiet_eval, N1|]. intros v. apply quiet_bind; [exact (IH N2)|]. intros r. apply quiet_ok.
Qed.
Lemma quiet_check : forall i f, quiet (check_consistency i f).
Proof. intros i f. unfold check_consistency. cbv zeta. destruct (negb _); [apply quiet_err; reflexivity|]. apply quiet_bind; [sl|]. intros _. destruct (i_mode i); sl. Qed.
Lemma quiet_execute : forall c i s, quiet (execute_in c i s).
Proof.
  intros c i s. unfold execute_in. apply quiet_bind; [apply quiet_check|]. intros _. cbv zeta.
  destruct (quiet_pull s) as (PA & PX & PY). 
  destruct (i_mnem i); try apply quiet_ok; try assumption; repeat first [apply quiet_maybe|apply quiet_add|apply quiet_int|progress sl].
Qed.
Lemma bind_fails : forall A B (r : res A) (k : A -> res B) e, bind r k = Err e -> (forall a x, k a <> Err x) -> r = Err e.
Proof. intros A B [a|e1|u|] k e H N; cbn [bind] in H; [destruct (N _ _ H)|injection H as ->; reflexivity|discriminate..]. Qed.
Lemma name_fails : forall s e, fails s e -> name_kind e = true -> stmt_ids s <> [].
Proof.
  intros s e F K N. assert (G : name_kind e = false); [|congruence]. clear K.
  destruct F as [(st & H)|[(i & st & -> & H)|[(i & f & -> & H)|[(d & c & -> & _ & L & H)|(a & c & L & H)]]]].
  - destruct s as [i|d]; cbn [stmt_execute] in H; [exact (quiet_execute _ _ _ _ H)|]. unfold directive_execute in H. destruct (d_name d); try discriminate; injection H as <-; reflexivity.
  - unfold execute_branch in H. apply bind_fails in H; [|intros a x X; discriminate X]. exact (quiet_execute _ _ _ _ H).
  - revert H. generalize e. change (quiet (fix_addressing_mode i f)). unfold fix_addressing_mode. sl.
  - cbn [stmt_ids] in N. apply app_eq_nil in N. exact (quiet_eval_opt _ _ (proj1 N) _ H).
  - revert H. generalize e. change (quiet (stmt_bytes a c s)).
    destruct s as [i|d]; cbn [stmt_bytes stmt_ids] in *; apply app_eq_nil in N; destruct N as [N1 N2]; [apply quiet_bind; [exact (quiet_bytes _ _ _ N1 N2)|intros; apply quiet_ok]|].
    unfold directive_bytes. destruct (d_name d); try apply quiet_ok; (apply quiet_bind; [apply quiet_list, N2|intros; apply quiet_ok]).
Qed.

(** ** Loading never gives them. *)
Lemma parse_kinds : forall ts e, parse ts = Err e -> name_kind e = false.
Proof.
  intros ts e H. rewrite <- (bare_parse no_location) in H. destruct (t_parse no_location ts) as [a|er|u|] eqn:T; try discriminate. injection H as <-.
  destruct (parse_near _ _ _ T) as (pre & t & post & _ & A & _). destruct A as [? ? ?|? ? ? ?|? ? ? ? I ?|? ? ? ?|? ?]; try reflexivity.
  repeat (destruct I as [<-|I]; [reflexivity|]). destruct I.
Qed.
Lemma tokenize_kinds : forall s e, tokenize s = Err e -> name_kind e = false.
Proof.
  intros s e H. rewrite <- (bare_tokenize no_location) in H. destruct (t_tokenize no_location s) as [a|er|u|] eqn:T; try discriminate. injection H as <-.
  destruct (tokens_says _ _ _ _ T) as [-> _]. reflexivity.
Qed.
Lemma entity_kinds : forall ld p e, load_entity ld p = Err e -> name_kind e = false.
Proof.
  intros ld [n x|s] e H; [discriminate|]. unfold load_entity in H. cbv zeta in H.
  assert (P : forall pend m sc, quiet (add_pending m sc pend)).
  { clear. induction pend as [|[n x] pend IH]; intros m sc; cbn [add_pending]; [apply quiet_ok|]. apply quiet_bind; [|intros; apply IH]. unfold add_label. sl. }
  revert H. generalize e. match goal with |- forall x, ?r = Err x -> _ => change (quiet r) end. apply quiet_bind; [apply P|]. intros m1. unfold load_directive. sl.
Qed.
Lemma lines_kinds : forall file l n ld locs e loc, lload_lines l n ld locs file = LErr e loc -> name_kind e = false.
Proof.
  induction file as [|s file IH]; intros l n ld locs e loc H; [discriminate|]. cbn [lload_lines] in H. cbv zeta in H. set (l' := loc_update l _) in H.
  destruct (tokenize s) as [ts|e1|u|] eqn:T; cbn [at_loc ModelLocation.bare set_location lbind] in H; try discriminate; [|injection H as <- _; exact (tokenize_kinds _ _ T)].
  destruct (parse_located l' ts) as [es|e1 l1|u|] eqn:P; cbn [lbind] in H; try discriminate.
  - destruct (lload_entities l' ld locs es) as [[ld1 locs1]|e2 l2|u|] eqn:LE; cbn [lbind] in H; try discriminate; [exact (IH _ _ _ _ _ _ H)|].
    injection H as <- _. clear -LE. revert ld locs LE. induction es as [|p es IH]; intros ld locs H; [discriminate|]. cbn [lload_entities] in H.
    destruct (load_entity ld p) as [ld1|e1|u|] eqn:L; cbn [at_loc ModelLocation.bare set_location lbind] in H; try discriminate; [exact (IH _ _ H)|injection H as <- _; exact (entity_kinds _ _ _ L)].
  - injection H as <- _. unfold parse_located in P. destruct (parse ts) as [a|e2|u|] eqn:PS; try discriminate. pose proof (parse_kinds _ _ PS) as K.
    destruct e2; cbn [at_loc ModelLocation.bare set_location] in P; injection P as <- _; first [exact K|reflexivity].
Qed.
Lemma files_kinds : forall files e l, lload_files files = LErr e l -> name_kind e = false.
Proof.
  induction files as [|[path f] files IH]; intros e l H; [discriminate|]. cbn [lload_files] in H. destruct (lload_asm_file path f) as [lm|e1 l1|u|] eqn:L; cbn [lbind] in H; try discriminate.
  - destruct (lload_files files) as [ms|e2 l2|u|] eqn:LF; cbn [lbind] in H; try discriminate. injection H as <- _. exact (IH _ _ eq_refl).
  - injection H as <- _. unfold lload_asm_file in L. destruct (lload_lines _ _ _ _ _) as [[ld locs]|e2 l2|u|] eqn:LL; cbn [lbind] in L; try discriminate.
    + destruct (ld_scopes ld); [discriminate|]. cbn [at_loc ModelLocation.bare set_location] in L. injection L as <- _. reflexivity.
    + injection L as <- _. exact (lines_kinds _ _ _ _ _ _ _ LL).
Qed.
Lemma names_blamed : forall fuel sk files ws e l, Forall (fun f => fst f <> "") files -> (forall ws w k p, sk ws w = LErr k p -> name_kind k = false) ->
  lassemble fuel sk files = (ws, LErr e l) -> name_kind e = true ->
  exists path file src n before labels s after, In (path, file) files /\ reads file src /\ src = before ++ (labels, s) :: after /\
    stands file (Z.of_nat (List.length before)) n /\ stmt_ids s <> [] /\ forall text, error_to_string l text = (path ++ ":" ++ dec_string n ++ ": " ++ text)%string.
Proof.
  intros fuel sk files ws e l NE SK H K. destruct (lload_files files) as [ms|e0 l0|u|] eqn:LF.
  - pose proof (files_loc files) as FL. rewrite LF in FL.
    assert (LD : forall path file, In (path, file) files -> exists m, load_asm_file file = Ok m).
    { intros path file I. clear - FL I. induction FL as [|f m fs ms L F IH]; [destruct I|]. destruct I as [->|I]; [|exact (IH I)]. destruct L as (_ & L & _). exists (lm_mod m). exact L. }
    assert (NB : forall path file n text, In (path, file) files -> ~ first_bad file n text e).
    { intros path file n text I (before & after & -> & _ & _ & B). destruct (LD _ _ I) as [m L]. rewrite (B after) in L. discriminate L. }
    apply errors_located in H; [|exact NE]. destruct H as [path file n text I B|path file n text I B|path file src b n I E|path file src k n I RD ST BL|path file src before labels s E|E|E|i j path path' file file' src src' mn n k k' E].
    + destruct (NB _ _ _ _ I B).
    + destruct (NB _ _ _ _ I B).
    + subst e. discriminate K.
    + destruct BL as (before & labels & s & after & s' & E & -> & W & REST). cbv zeta in REST.
      destruct REST as [F|[[X _]|[[X _]|[[X _]|[[X _]|[[X _]|(w & c & SB & [[X _]|(l0 & SX)])]]]]]]; try (subst e; discriminate K).
      * pose proof (name_fails _ _ F K) as NI. exists path, file, src, n, before, labels, s, after. split; [exact I|]. split; [exact RD|]. split; [exact E|]. split; [exact ST|]. split.
        { destruct W as [->|(i & g & m' & -> & _ & ->)]; exact NI. }
        intros text. apply line_text. rewrite Forall_forall in NE. exact (NE _ I).
      * rewrite (SK _ _ _ _ SX) in K. discriminate K.
    + subst e. discriminate K.
    + subst e. discriminate K.
    + subst e. discriminate K.
    + subst e. discriminate K.
  - unfold lassemble in H. rewrite LF in H. cbn [lwbind] in H. injection H as _ -> _. rewrite (files_kinds _ _ _ LF) in K. discriminate K.
  - unfold lassemble in H. rewrite LF in H. discriminate H.
  - unfold lassemble in H. rewrite LF in H. discriminate H.
Qed.

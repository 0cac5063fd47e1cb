(** Errors about lines that cannot be reached or placed, and branches to nowhere, in a whole program. *)
From Coq Require Import Lia.
From Verif Require Import BaseProofs ModelNumeric ModelAddress ModelMnemonic ModelExpr ModelAMode ModelOpcode
  ModelState ModelInstr ModelToken ModelStatement ModelParse ModelMap ModelModule ModelAssembler ModelRom ModelTools ModelLocation ModelRomText ModelParseText ModelFlagText ModelFlowText
  Spec65816 SpecScope SpecInstr SpecLayout SpecAssemble SpecSink SpecLocation SpecText SpecParseText SpecState NameProofs LocationProofs LocatedProofs BlameProofs ParseTextProofs PlaceProofs MismatchProofs FlagTextProofs.
Open Scope string_scope.
Open Scope list_scope.
Open Scope Z_scope.

(** ** Errors that no statement gives by itself. *)
Definition flow_kind (e : err) : bool := match e with E_no_target | E_unreached | E_no_address => true | _ => false end.
Definition calm {A} (r : res A) : Prop := forall e, r = Err e -> flow_kind e = false.
Lemma calm_bind : forall A B (r : res A) (f : A -> res B), calm r -> (forall a, calm (f a)) -> calm (bind r f).
Proof. intros A B [a|e|u|] f R F x H; cbn [bind] in H; [exact (F a x H)|injection H as <-; exact (R e eq_refl)|discriminate..]. Qed.
Lemma calm_ok : forall A (a : A), calm (Ok a).
Proof. intros A a e H. discriminate H. Qed.
Lemma calm_ub : forall A u, calm (@UB A u).
Proof. intros A u e H. discriminate H. Qed.
Lemma calm_err : forall A e, flow_kind e = false -> calm (@Err A e).
Proof. intros A e K x H. injection H as <-. exact K. Qed.
Lemma calm_fuel : forall A, calm (@OutOfFuel A).
Proof. intros A e H. discriminate H. Qed.
Ltac sl := repeat first [apply calm_ok|apply calm_ub|apply calm_fuel|apply calm_err; reflexivity|apply calm_bind; [|intros]|match goal with |- calm (match ?x with _ => _ end) => destruct x end].
Lemma calm_int : forall z, calm (int_result z).
Proof. intros z. unfold int_result. sl. Qed.
Lemma calm_eval : forall c e, looks_up c -> calm (eval c e).
Proof.
  intros c e L. induction e as [v t|id t|op l IHl r IHr|op e IH|l e IH]; cbn [eval].
  - apply calm_ok.
  - intros x H. apply L in H. destruct H as [<-|[<-|[<-|[<-|[]]]]]; reflexivity.
  - destruct (eval c l) as [a|e1|u|], (eval c r) as [b|e2|u2|]; try apply calm_ub; try apply calm_fuel; try exact IHl; try exact IHr; try (intros x H; injection H as <-; first [exact (IHl _ eq_refl)|exact (IHr _ eq_refl)]).
    unfold apply_binop. destruct op; try apply calm_int. destruct (b =? 0); [apply calm_err; reflexivity|apply calm_int].
  - apply calm_bind; [exact IH|]. intros a. unfold apply_unop. destruct op; try apply calm_ok; apply calm_int.
  - exact IH.
Qed.
Lemma calm_eval_opt : forall c e, looks_up c -> calm (eval_opt c e).
Proof. intros c [e|] L; cbn [eval_opt]; [apply calm_eval, L|apply calm_err; reflexivity]. Qed.
Lemma calm_maybe : forall c e, calm (maybe_arg c e).
Proof. intros c e. unfold maybe_arg. sl. Qed.
Lemma calm_add : forall a b r, calm (rv_add a b r).
Proof. intros a b r. unfold rv_add. repeat first [apply calm_int|progress sl]. Qed.
Lemma calm_pull : forall s, calm (pull_a s) /\ calm (pull_x s) /\ calm (pull_y s).
Proof.
  intros s. assert (P : forall t b k, calm (pull_reg t b k)).
  { intros t b k. unfold pull_reg. assert (V : forall k, calm (pull_varsize k)) by (intros k0; unfold pull_varsize; sl).
    assert (W : forall v, calm (sv_value v)) by (intros v; unfold sv_value; sl). repeat first [apply V|apply W|progress sl]. }
  unfold pull_a, pull_x, pull_y. repeat split; (apply calm_bind; [apply P|intros [r k]; apply calm_ok]).
Qed.
Lemma calm_bytes : forall a c i, looks_up c -> calm (instr_bytes a c i).
Proof.
  intros a c i L. unfold instr_bytes. destruct (match i_mnem i with PM_add => _ | PM_sub => _ | _ => _ end) as [prefix tm].
  destruct (encode_opcode tm (i_mode i)); [|apply calm_err; reflexivity]. cbv zeta.
  assert (E : forall e, calm (eval_opt c e)) by (intros e; apply calm_eval_opt, L).
  assert (M : forall v, calm (mk_address v)) by (intros v; unfold mk_address; sl).
  assert (S : forall x y, calm (subtract_wrapped x y)) by (intros x y; unfold subtract_wrapped; sl).
  destruct (i_mode i); repeat first [apply E|apply M|apply S|progress sl].
Qed.
Lemma calm_list : forall d c l, looks_up c -> calm (encode_list d c l).
Proof. intros d c l L. induction l as [|e l IH]; cbn [encode_list]; [apply calm_ok|]. apply calm_bind; [apply calm_eval, L|]. intros v. apply calm_bind; [exact IH|]. intros r. apply calm_ok. Qed.

Lemma calm_check : forall i f, calm (check_consistency i f).
Proof. intros i f. unfold check_consistency. cbv zeta. destruct (negb _); [apply calm_err; reflexivity|]. apply calm_bind; [sl|]. intros _. destruct (i_mode i); sl. Qed.
Lemma calm_execute : forall c i s, calm (execute_in c i s).
Proof.
  intros c i s. unfold execute_in. apply calm_bind; [apply calm_check|]. intros _. cbv zeta.
  destruct (calm_pull s) as (PA & PX & PY).
  destruct (i_mnem i); try apply calm_ok; try assumption; repeat first [apply calm_maybe|apply calm_add|apply calm_int|progress sl].
Qed.
Lemma bind_fails : forall A B (r : res A) (k : A -> res B) e, bind r k = Err e -> (forall a x, k a <> Err x) -> r = Err e.
Proof. intros A B [a|e1|u|] k e H N; cbn [bind] in H; [destruct (N _ _ H)|injection H as ->; reflexivity|discriminate..]. Qed.
Lemma flow_fails : forall s e, fails s e -> flow_kind e = false.
Proof.
  intros s e [(st & H)|[(i & st & -> & H)|[(i & f & -> & H)|[(d & c & -> & _ & L & H)|(a & c & L & H)]]]].
  - destruct s as [i|d]; cbn [stmt_execute] in H; [exact (calm_execute _ _ _ _ H)|]. unfold directive_execute in H. destruct (d_name d); try discriminate; injection H as <-; reflexivity.
  - unfold execute_branch in H. apply bind_fails in H; [|intros a x X; discriminate X]. exact (calm_execute _ _ _ _ H).
  - revert H. generalize e. change (calm (fix_addressing_mode i f)). unfold fix_addressing_mode. sl.
  - exact (calm_eval_opt _ _ L _ H).
  - revert H. generalize e. change (calm (stmt_bytes a c s)). destruct s as [i|d]; cbn [stmt_bytes]; [apply calm_bind; [apply calm_bytes, L|intros; apply calm_ok]|].
    unfold directive_bytes. destruct (d_name d); try apply calm_ok; (apply calm_bind; [apply calm_list, L|intros; apply calm_ok]).
Qed.

(** ** Loading never gives them. *)
Lemma parse_kinds : forall ts e, parse ts = Err e -> flow_kind e = false.
Proof.
  intros ts e H. rewrite <- (bare_parse no_location) in H. destruct (t_parse no_location ts) as [a|er|u|] eqn:T; try discriminate. injection H as <-.
  destruct (parse_near _ _ _ T) as (pre & t & post & _ & A & _). destruct A as [? ? ?|? ? ? ?|? ? ? ? I ?|? ? ? ?|? ?]; try reflexivity.
  repeat (destruct I as [<-|I]; [reflexivity|]). destruct I.
Qed.
Lemma tokenize_kinds : forall s e, tokenize s = Err e -> flow_kind e = false.
Proof.
  intros s e H. rewrite <- (bare_tokenize no_location) in H. destruct (t_tokenize no_location s) as [a|er|u|] eqn:T; try discriminate. injection H as <-.
  destruct (tokens_says _ _ _ _ T) as [-> _]. reflexivity.
Qed.
Lemma entity_kinds : forall ld p e, load_entity ld p = Err e -> flow_kind e = false.
Proof.
  intros ld [n x|s] e H; [discriminate|]. unfold load_entity in H. cbv zeta in H.
  assert (P : forall pend m sc, calm (add_pending m sc pend)).
  { clear. induction pend as [|[n x] pend IH]; intros m sc; cbn [add_pending]; [apply calm_ok|]. apply calm_bind; [|intros; apply IH]. unfold add_label. sl. }
  revert H. generalize e. match goal with |- forall x, ?r = Err x -> _ => change (calm r) end. apply calm_bind; [apply P|]. intros m1. unfold load_directive. sl.
Qed.
Lemma lines_kinds : forall file l n ld locs e loc, lload_lines l n ld locs file = LErr e loc -> flow_kind e = false.
Proof.
  induction file as [|s file IH]; intros l n ld locs e loc H; [discriminate|]. cbn [lload_lines] in H. cbv zeta in H. set (l' := loc_update l _) in H.
  destruct (tokenize s) as [ts|e1|u|] eqn:T; cbn [at_loc ModelLocation.bare set_location lbind] in H; try discriminate; [|injection H as <- _; exact (tokenize_kinds _ _ T)].
  destruct (parse_located l' ts) as [es|e1 l1|u|] eqn:P; cbn [lbind] in H; try discriminate.
  - destruct (lload_entities l' ld locs es) as [[ld1 locs1]|e2 l2|u|] eqn:LE; cbn [lbind] in H; try discriminate; [exact (IH _ _ _ _ _ _ H)|].
    injection H as <- _. clear -LE. revert ld locs LE. induction es as [|p es IH]; intros ld locs H; [discriminate|]. cbn [lload_entities] in H.
    destruct (load_entity ld p) as [ld1|e1|u|] eqn:L; cbn [at_loc ModelLocation.bare set_location lbind] in H; try discriminate; [exact (IH _ _ H)|injection H as <- _; exact (entity_kinds _ _ _ L)].
  - injection H as <- _. unfold parse_located in P. destruct (parse ts) as [a|e2|u|] eqn:PS; try discriminate. pose proof (parse_kinds _ _ PS) as K.
    destruct e2; cbn [at_loc ModelLocation.bare set_location] in P; injection P as <- _; first [exact K|reflexivity].
Qed.
Lemma files_kinds : forall files e l, lload_files files = LErr e l -> flow_kind e = false.
Proof.
  induction files as [|[path f] files IH]; intros e l H; [discriminate|]. cbn [lload_files] in H. destruct (lload_asm_file path f) as [lm|e1 l1|u|] eqn:L; cbn [lbind] in H; try discriminate.
  - destruct (lload_files files) as [ms|e2 l2|u|] eqn:LF; cbn [lbind] in H; try discriminate. injection H as <- _. exact (IH _ _ eq_refl).
  - injection H as <- _. unfold lload_asm_file in L. destruct (lload_lines _ _ _ _ _) as [[ld locs]|e2 l2|u|] eqn:LL; cbn [lbind] in L; try discriminate.
    + destruct (ld_scopes ld); [discriminate|]. cbn [at_loc ModelLocation.bare set_location] in L. injection L as <- _. reflexivity.
    + injection L as <- _. exact (lines_kinds _ _ _ _ _ _ _ LL).
Qed.
Lemma flow_blamed : forall fuel sk files ws e l, Forall (fun f => fst f <> "") files -> (forall ws w k p, sk ws w = LErr k p -> flow_kind k = false) ->
  lassemble fuel sk files = (ws, LErr e l) -> flow_kind e = true ->
  exists path file src n before labels s after s', In (path, file) files /\ reads file src /\ src = before ++ (labels, s) :: after /\
    stands file (Z.of_nat (List.length before)) n /\ widened s s' /\
    ((e = E_no_target /\ exists i x ty, s = SInstr i /\ relative_branch (i_mnem i) /\ i_arg1 i = Some (EId (FullId None x) ty) /\
        (forall t, ~ denotes src (Z.of_nat (List.length before)) x t) /\ flow_text e s = ("Target for `" ++ mnem_to_string (i_mnem i) ++ " " ++ x ++ "` not found")%string) \/
     (e = E_unreached /\ (exists i, s = SInstr i) /\ flow_text e s = "Line not reached during execution") \/
     (e = E_no_address /\ 0 < stmt_size s' /\ (forall y, In y (map snd before ++ [s]) -> ~ is_dir D_org y) /\ flow_text e s = "No address given for assembly")) /\
    error_to_string l (flow_text e s) = (path ++ ":" ++ dec_string n ++ ": " ++ flow_text e s)%string.
Proof.
  intros fuel sk files ws e l NE SK H K. destruct (lload_files files) as [ms|e0 l0|u|] eqn:LF.
  - pose proof (files_loc files) as FL. rewrite LF in FL.
    assert (LD : forall path file, In (path, file) files -> exists m, load_asm_file file = Ok m).
    { intros path file I. clear - FL I. induction FL as [|f m fs ms L F IH]; [destruct I|]. destruct I as [->|I]; [|exact (IH I)]. destruct L as (_ & L & _). exists (lm_mod m). exact L. }
    assert (NB : forall path file n text, In (path, file) files -> ~ first_bad file n text e).
    { intros path file n text I (before & after & -> & _ & _ & B). destruct (LD _ _ I) as [m L]. rewrite (B after) in L. discriminate L. }
    apply errors_located in H; [|exact NE]. destruct H as [path file n text I B|path file n text I B|path file src b n I E|path file src k n I RD ST BL|path file src before labels s E|E|E|i j path path' file file' src src' mn n k k' E].
    + destruct (NB _ _ _ _ I B).
    + destruct (NB _ _ _ _ I B).
    + subst e. discriminate K.
    + destruct BL as (before & labels & s & after & s' & E & -> & W & REST). cbv zeta in REST.
      exists path, file, src, n, before, labels, s, after, s'. split; [exact I|]. split; [exact RD|]. split; [exact E|]. split; [exact ST|]. split; [exact W|].
      assert (LT : forall text, error_to_string (line_of path n) text = (path ++ ":" ++ dec_string n ++ ": " ++ text)%string) by (intros text; apply line_text; rewrite Forall_forall in NE; exact (NE _ I)).
      split; [|apply LT].
      destruct REST as [F|[[X (i & x & ty & SI & RB & A1 & DN)]|[[X SI]|[[X [SZ UP]]|[[X _]|[[X _]|(w & c & SB & [[X _]|(l0 & SX)])]]]]]]; try (subst e; discriminate K).
      * rewrite (flow_fails _ _ F) in K. discriminate K.
      * left. split; [exact X|]. exists i, x, ty. split; [exact SI|]. split; [exact RB|]. split; [exact A1|]. split; [exact DN|]. subst e s. unfold flow_text. rewrite A1. reflexivity.
      * right. left. subst e. split; [reflexivity|]. split; [exact SI|]. destruct SI as [i ->]. reflexivity.
      * right. right. subst e. split; [reflexivity|]. split; [exact SZ|]. split; [exact UP|reflexivity].
      * rewrite (SK _ _ _ _ SX) in K. discriminate K.
    + subst e. discriminate K.
    + subst e. discriminate K.
    + subst e. discriminate K.
    + subst e. discriminate K.
  - unfold lassemble in H. rewrite LF in H. cbn [lwbind] in H. injection H as _ -> _. rewrite (files_kinds _ _ _ LF) in K. discriminate K.
  - unfold lassemble in H. rewrite LF in H. discriminate H.
  - unfold lassemble in H. rewrite LF in H. discriminate H.
Qed.

(** Errors about status flags in a whole program. *)
From Coq Require Import Lia.
From Verif Require Import BaseProofs ModelNumeric ModelAddress ModelMnemonic ModelExpr ModelAMode ModelOpcode
  ModelState ModelInstr ModelToken ModelStatement ModelParse ModelMap ModelModule ModelAssembler ModelRom ModelTools ModelLocation ModelRomText ModelParseText ModelFlagText
  SpecScope SpecInstr SpecLayout SpecAssemble SpecSink SpecLocation SpecText SpecParseText SpecFlagText NameProofs LocationProofs LocatedProofs BlameProofs ParseTextProofs PlaceProofs MismatchProofs FlagTextProofs.
Open Scope string_scope.
Open Scope list_scope.
Open Scope Z_scope.

(** ** Errors that only the flags give. *)
Definition width_kind (e : err) : bool := match e with E_flag_mismatch | E_unknown_size => true | _ => false end.
Definition still {A} (r : res A) : Prop := forall e, r = Err e -> width_kind e = false.
Lemma still_bind : forall A B (r : res A) (f : A -> res B), still r -> (forall a, still (f a)) -> still (bind r f).
Proof. intros A B [a|e|u|] f R F x H; cbn [bind] in H; [exact (F a x H)|injection H as <-; exact (R e eq_refl)|discriminate..]. Qed.
Lemma still_ok : forall A (a : A), still (Ok a).
Proof. intros A a e H. discriminate H. Qed.
Lemma still_ub : forall A u, still (@UB A u).
Proof. intros A u e H. discriminate H. Qed.
Lemma still_err : forall A e, width_kind e = false -> still (@Err A e).
Proof. intros A e K x H. injection H as <-. exact K. Qed.
Lemma still_fuel : forall A, still (@OutOfFuel A).
Proof. intros A e H. discriminate H. Qed.
Ltac sl := repeat first [apply still_ok|apply still_ub|apply still_fuel|apply still_err; reflexivity|apply still_bind; [|intros]|match goal with |- still (match ?x with _ => _ end) => destruct x end].
Lemma still_int : forall z, still (int_result z).
Proof. intros z. unfold int_result. sl. Qed.
Lemma still_eval : forall c e, looks_up c -> still (eval c e).
Proof.
  intros c e L. induction e as [v t|id t|op l IHl r IHr|op e IH|l e IH]; cbn [eval].
  - apply still_ok.
  - intros x H. apply L in H. destruct H as [<-|[<-|[<-|[<-|[]]]]]; reflexivity.
  - destruct (eval c l) as [a|e1|u|], (eval c r) as [b|e2|u2|]; try apply still_ub; try apply still_fuel; try exact IHl; try exact IHr; try (intros x H; injection H as <-; first [exact (IHl _ eq_refl)|exact (IHr _ eq_refl)]).
    unfold apply_binop. destruct op; try apply still_int. destruct (b =? 0); [apply still_err; reflexivity|apply still_int].
  - apply still_bind; [exact IH|]. intros a. unfold apply_unop. destruct op; try apply still_ok; apply still_int.
  - exact IH.
Qed.
Lemma still_eval_opt : forall c e, looks_up c -> still (eval_opt c e).
Proof. intros c [e|] L; cbn [eval_opt]; [apply still_eval, L|apply still_err; reflexivity]. Qed.
Lemma still_maybe : forall c e, still (maybe_arg c e).
Proof. intros c e. unfold maybe_arg. sl. Qed.
Lemma still_add : forall a b r, still (rv_add a b r).
Proof. intros a b r. unfold rv_add. repeat first [apply still_int|progress sl]. Qed.
Lemma still_pull : forall s, still (pull_a s) /\ still (pull_x s) /\ still (pull_y s).
Proof.
  intros s. assert (P : forall t b k, still (pull_reg t b k)).
  { intros t b k. unfold pull_reg. assert (V : forall k, still (pull_varsize k)) by (intros k0; unfold pull_varsize; sl).
    assert (W : forall v, still (sv_value v)) by (intros v; unfold sv_value; sl). repeat first [apply V|apply W|progress sl]. }
  unfold pull_a, pull_x, pull_y. repeat split; (apply still_bind; [apply P|intros [r k]; apply still_ok]).
Qed.
Lemma still_bytes : forall a c i, looks_up c -> still (instr_bytes a c i).
Proof.
  intros a c i L. unfold instr_bytes. destruct (match i_mnem i with PM_add => _ | PM_sub => _ | _ => _ end) as [prefix tm].
  destruct (encode_opcode tm (i_mode i)); [|apply still_err; reflexivity]. cbv zeta.
  assert (E : forall e, still (eval_opt c e)) by (intros e; apply still_eval_opt, L).
  assert (M : forall v, still (mk_address v)) by (intros v; unfold mk_address; sl).
  assert (S : forall x y, still (subtract_wrapped x y)) by (intros x y; unfold subtract_wrapped; sl).
  destruct (i_mode i); repeat first [apply E|apply M|apply S|progress sl].
Qed.
Lemma still_list : forall d c l, looks_up c -> still (encode_list d c l).
Proof. intros d c l L. induction l as [|e l IH]; cbn [encode_list]; [apply still_ok|]. apply still_bind; [apply still_eval, L|]. intros v. apply still_bind; [exact IH|]. intros r. apply still_ok. Qed.

Lemma still_execute : forall c i s e, execute_in c i s = Err e -> width_kind e = true -> check_consistency i (es_flags s) = Err e.
Proof.
  intros c i s e H K. unfold execute_in in H. destruct (check_consistency i (es_flags s)) as [[]|e1|u|]; cbn [bind] in H; try discriminate; [|injection H as ->; reflexivity].
  exfalso. assert (G : width_kind e = false); [|congruence]. clear K. revert H. generalize e. cbv zeta.
  destruct (still_pull s) as (PA & PX & PY). unfold still in *.
  destruct (i_mnem i); try (intros x H; discriminate H); try assumption.
  all: match goal with |- forall x, ?r = Err x -> _ => change (still r) end; repeat first [apply still_maybe|apply still_add|apply still_int|progress sl].
Qed.
Lemma bind_fails : forall A B (r : res A) (k : A -> res B) e, bind r k = Err e -> (forall a x, k a <> Err x) -> r = Err e.
Proof. intros A B [a|e1|u|] k e H N; cbn [bind] in H; [destruct (N _ _ H)|injection H as ->; reflexivity|discriminate..]. Qed.
Lemma flag_fails : forall s e, fails s e -> width_kind e = true -> exists i f er, s = SInstr i /\ (t_check_consistency i f = PErr er \/ t_fix_addressing_mode i f = PErr er) /\ re_kind er = e.
Proof.
  assert (C : forall i f e, check_consistency i f = Err e -> exists er, t_check_consistency i f = PErr er /\ re_kind er = e).
  { intros i f e H. rewrite <- bare_check in H. destruct (t_check_consistency i f) as [a|er|u|]; try discriminate. injection H as <-. exists er. split; reflexivity. }
  intros s e [(st & H)|[(i & st & -> & H)|[(i & f & -> & H)|[(d & c & -> & _ & L & H)|(a & c & L & H)]]]] K.
  - destruct s as [i|d]; cbn [stmt_execute] in H.
    + apply still_execute in H; [|exact K]. destruct (C _ _ _ H) as (er & T & KE). exists i, (es_flags st), er. split; [reflexivity|]. split; [left; exact T|exact KE].
    + exfalso. unfold directive_execute in H. destruct (d_name d); try discriminate; injection H as <-; discriminate K.
  - unfold execute_branch in H. apply bind_fails in H; [|intros a x X; discriminate X]. apply still_execute in H; [|exact K].
    destruct (C _ _ _ H) as (er & T & KE). eexists i, _, er. split; [reflexivity|]. split; [left; exact T|exact KE].
  - rewrite <- bare_fix in H. destruct (t_fix_addressing_mode i f) as [a|er|u|] eqn:T; try discriminate. injection H as <-. exists i, f, er. split; [reflexivity|]. split; [right; exact T|reflexivity].
  - apply still_eval_opt in H; [congruence|exact L].
  - exfalso. assert (G : still (stmt_bytes a c s)); [|rewrite (G _ H) in K; discriminate K].
    destruct s as [i|d]; cbn [stmt_bytes]; [apply still_bind; [apply still_bytes, L|intros; apply still_ok]|].
    unfold directive_bytes. destruct (d_name d); try apply still_ok; (apply still_bind; [apply still_list, L|intros; apply still_ok]).
Qed.

(** ** Loading never gives them. *)
Lemma parse_kinds : forall ts e, parse ts = Err e -> width_kind e = false.
Proof.
  intros ts e H. rewrite <- (bare_parse no_location) in H. destruct (t_parse no_location ts) as [a|er|u|] eqn:T; try discriminate. injection H as <-.
  destruct (parse_near _ _ _ T) as (pre & t & post & _ & A & _). destruct A as [? ? ?|? ? ? ?|? ? ? ? I ?|? ? ? ?|? ?]; try reflexivity.
  repeat (destruct I as [<-|I]; [reflexivity|]). destruct I.
Qed.
Lemma tokenize_kinds : forall s e, tokenize s = Err e -> width_kind e = false.
Proof.
  intros s e H. rewrite <- (bare_tokenize no_location) in H. destruct (t_tokenize no_location s) as [a|er|u|] eqn:T; try discriminate. injection H as <-.
  destruct (tokens_says _ _ _ _ T) as [-> _]. reflexivity.
Qed.
Lemma entity_kinds : forall ld p e, load_entity ld p = Err e -> width_kind e = false.
Proof.
  intros ld [n x|s] e H; [discriminate|]. unfold load_entity in H. cbv zeta in H.
  assert (P : forall pend m sc, still (add_pending m sc pend)).
  { clear. induction pend as [|[n x] pend IH]; intros m sc; cbn [add_pending]; [apply still_ok|]. apply still_bind; [|intros; apply IH]. unfold add_label. sl. }
  revert H. generalize e. match goal with |- forall x, ?r = Err x -> _ => change (still r) end. apply still_bind; [apply P|]. intros m1. unfold load_directive. sl.
Qed.
Lemma lines_kinds : forall file l n ld locs e loc, lload_lines l n ld locs file = LErr e loc -> width_kind e = false.
Proof.
  induction file as [|s file IH]; intros l n ld locs e loc H; [discriminate|]. cbn [lload_lines] in H. cbv zeta in H. set (l' := loc_update l _) in H.
  destruct (tokenize s) as [ts|e1|u|] eqn:T; cbn [at_loc ModelLocation.bare set_location lbind] in H; try discriminate; [|injection H as <- _; exact (tokenize_kinds _ _ T)].
  destruct (parse_located l' ts) as [es|e1 l1|u|] eqn:P; cbn [lbind] in H; try discriminate.
  - destruct (lload_entities l' ld locs es) as [[ld1 locs1]|e2 l2|u|] eqn:LE; cbn [lbind] in H; try discriminate; [exact (IH _ _ _ _ _ _ H)|].
    injection H as <- _. clear -LE. revert ld locs LE. induction es as [|p es IH]; intros ld locs H; [discriminate|]. cbn [lload_entities] in H.
    destruct (load_entity ld p) as [ld1|e1|u|] eqn:L; cbn [at_loc ModelLocation.bare set_location lbind] in H; try discriminate; [exact (IH _ _ H)|injection H as <- _; exact (entity_kinds _ _ _ L)].
  - injection H as <- _. unfold parse_located in P. destruct (parse ts) as [a|e2|u|] eqn:PS; try discriminate. pose proof (parse_kinds _ _ PS) as K.
    destruct e2; cbn [at_loc ModelLocation.bare set_location] in P; injection P as <- _; first [exact K|reflexivity].
Qed.
Lemma files_kinds : forall files e l, lload_files files = LErr e l -> width_kind e = false.
Proof.
  induction files as [|[path f] files IH]; intros e l H; [discriminate|]. cbn [lload_files] in H. destruct (lload_asm_file path f) as [lm|e1 l1|u|] eqn:L; cbn [lbind] in H; try discriminate.
  - destruct (lload_files files) as [ms|e2 l2|u|] eqn:LF; cbn [lbind] in H; try discriminate. injection H as <- _. exact (IH _ _ eq_refl).
  - injection H as <- _. unfold lload_asm_file in L. destruct (lload_lines _ _ _ _ _) as [[ld locs]|e2 l2|u|] eqn:LL; cbn [lbind] in L; try discriminate.
    + destruct (ld_scopes ld); [discriminate|]. cbn [at_loc ModelLocation.bare set_location] in L. injection L as <- _. reflexivity.
    + injection L as <- _. exact (lines_kinds _ _ _ _ _ _ _ LL).
Qed.
Lemma flags_blamed : forall fuel sk files ws e l, Forall (fun f => fst f <> "") files -> (forall ws w k p, sk ws w = LErr k p -> width_kind k = false) ->
  lassemble fuel sk files = (ws, LErr e l) -> width_kind e = true ->
  exists path file src n before labels i after i' f er, In (path, file) files /\ reads file src /\ src = before ++ (labels, SInstr i) :: after /\
    stands file (Z.of_nat (List.length before)) n /\ widened (SInstr i) (SInstr i') /\
    (t_check_consistency i' f = PErr er \/ t_fix_addressing_mode i' f = PErr er) /\ re_kind er = e /\
    error_to_string l (re_text er) = (path ++ ":" ++ dec_string n ++ ": " ++ re_text er)%string.
Proof.
  intros fuel sk files ws e l NE SK H K. destruct (lload_files files) as [ms|e0 l0|u|] eqn:LF.
  - pose proof (files_loc files) as FL. rewrite LF in FL.
    assert (LD : forall path file, In (path, file) files -> exists m, load_asm_file file = Ok m).
    { intros path file I. clear - FL I. induction FL as [|f m fs ms L F IH]; [destruct I|]. destruct I as [->|I]; [|exact (IH I)]. destruct L as (_ & L & _). exists (lm_mod m). exact L. }
    assert (NB : forall path file n text, In (path, file) files -> ~ first_bad file n text e).
    { intros path file n text I (before & after & -> & _ & _ & B). destruct (LD _ _ I) as [m L]. rewrite (B after) in L. discriminate L. }
    apply errors_located in H; [|exact NE]. destruct H as [path file n text I B|path file n text I B|path file src b n I E|path file src k n I RD ST BL|path file src before labels s E|E|E|i j path path' file file' src src' mn n k k' E].
    + destruct (NB _ _ _ _ I B).
    + destruct (NB _ _ _ _ I B).
    + subst e. discriminate K.
    + destruct BL as (before & labels & s & after & s' & E & -> & W & REST). cbv zeta in REST.
      destruct REST as [F|[[X _]|[[X _]|[[X _]|[[X _]|[[X _]|(w & c & SB & [[X _]|(l0 & SX)])]]]]]]; try (subst e; discriminate K).
      * destruct (flag_fails _ _ F K) as (i' & f & er & -> & T & KE).
        assert (SI : exists i, s = SInstr i) by (destruct W as [<-|(i & g & m' & -> & _)]; eexists; reflexivity). destruct SI as [i ->].
        exists path, file, src, n, before, labels, i, after, i', f, er. split; [exact I|]. split; [exact RD|]. split; [exact E|]. split; [exact ST|]. split; [exact W|]. split; [exact T|]. split; [exact KE|].
        apply line_text. rewrite Forall_forall in NE. exact (NE _ I).
      * rewrite (SK _ _ _ _ SX) in K. discriminate K.
    + subst e. discriminate K.
    + subst e. discriminate K.
    + subst e. discriminate K.
    + subst e. discriminate K.
  - unfold lassemble in H. rewrite LF in H. cbn [lwbind] in H. injection H as _ -> _. rewrite (files_kinds _ _ _ LF) in K. discriminate K.
  - unfold lassemble in H. rewrite LF in H. discriminate H.
  - unfold lassemble in H. rewrite LF in H. discriminate H.
Qed.

(** The place that a message about a line of source names. *)
From Coq Require Import Lia.
From Verif Require Import BaseProofs ModelNumeric ModelMnemonic ModelExpr ModelAMode ModelOpcode
  ModelState ModelInstr ModelToken ModelStatement ModelParse ModelAddress ModelMap ModelModule ModelAssembler ModelRom ModelTools ModelLocation ModelRomText ModelInteractive
  ModelParseText SpecScope SpecInstr SpecLayout SpecAssemble SpecSink SpecLocation SpecText SpecParseText
  ProgramProofs LocationProofs LocatedProofs ParseTextProofs MismatchProofs BlameProofs.
Open Scope string_scope.
Open Scope list_scope.
Open Scope Z_scope.

Definition unplaced_kind (e : err) : bool := match e with E_logic | E_convention => true | _ => false end.
Definition sited {A} (l : location) (r : pres A) : Prop := forall e, r = PErr e -> re_loc e = if unplaced_kind (re_kind e) then no_location else loc_update no_location l.
Lemma sited_bind : forall A B l (r : pres A) (f : A -> pres B), sited l r -> (forall a, sited l (f a)) -> sited l (pbind r f).
Proof. intros A B l [a|e|u|] f R F x H; cbn [pbind] in H; [exact (F a x H)|injection H as <-; exact (R e eq_refl)|discriminate..]. Qed.
Lemma sited_ok : forall A l (a : A), sited l (POk a).
Proof. intros A l a e H. discriminate H. Qed.
Lemma sited_ub : forall A l u, sited l (@PUB A u).
Proof. intros A l u e H. discriminate H. Qed.
Lemma sited_fuel : forall A l, sited l (@PFuel A).
Proof. intros A l e H. discriminate H. Qed.
Lemma sited_at : forall A l k text, unplaced_kind k = false -> sited l (@err_at A k text l).
Proof. intros A l k text K e H. injection H as <-. cbn [re_kind re_loc]. rewrite K. reflexivity. Qed.
Lemma sited_no : forall A l k text, unplaced_kind k = true -> sited l (@PErr A (RError k text no_location)).
Proof. intros A l k text K e H. injection H as <-. cbn [re_kind re_loc]. rewrite K. reflexivity. Qed.
Ltac si1 := first [apply sited_ok|apply sited_ub|apply sited_fuel|apply sited_at; reflexivity|apply sited_no; reflexivity|apply sited_bind; [|intros ?]
  |match goal with |- sited _ (match ?x with _ => _ end) => destruct x end].
Ltac si := repeat si1.
Lemma sited_front : forall l ts, sited l (t_front ts).
Proof. intros l ts. unfold t_front. si. Qed.
Lemma sited_end : forall l ts, sited l (t_at_end ts).
Proof. intros l ts. unfold t_at_end. apply sited_bind; [apply sited_front|]. intros. si. Qed.
Lemma sited_end_suffix : forall l ts, sited l (t_at_end_or_suffix ts).
Proof. intros l ts. unfold t_at_end_or_suffix. apply sited_bind; [apply sited_front|]. intros. si. Qed.
Lemma sited_consume : forall l c m ts, sited l (t_consume l c m ts).
Proof. intros. unfold t_consume. si. Qed.
Lemma sited_confirm : forall l m ts, sited l (t_confirm_at_end l m ts).
Proof. intros. unfold t_confirm_at_end. apply sited_bind; [apply sited_front|]. intros. si. Qed.
Lemma sited_confirm_suffix : forall l m ts, sited l (t_confirm_at_end_or_suffix l m ts).
Proof. intros. unfold t_confirm_at_end_or_suffix. apply sited_bind; [apply sited_front|]. intros. si. Qed.
Lemma sited_register : forall l al m ts, sited l (t_confirm_legal_register l al m ts).
Proof. intros. unfold t_confirm_legal_register. apply sited_bind; [apply sited_front|]. intros. si. Qed.
Lemma sited_mode : forall l ts, sited l (t_mode l ts).
Proof. intros. unfold t_mode. si. Qed.
Lemma sited_ident : forall l long ts r, t_ident l long ts = Some r -> sited l r.
Proof.
  intros l long ts r H. unfold t_ident in H. destruct ts as [|t ts]; [injection H as <-; apply sited_ub|].
  assert (X : forall x : option (pres (expr * list token)), match x with Some r => sited l r | None => True end -> x = Some r -> sited l r) by (intros x X ->; exact X).
  revert H. apply X. clear X.
  repeat (match goal with |- match ?x with Some _ => _ | None => _ end => lazymatch x with Some _ => fail | None => fail | match ?y with _ => _ end => destruct y end end).
  all: try exact Logic.I; cbv beta iota; si.
Qed.
Lemma sited_exprs : forall l f,
  (forall ts, sited l (t_expr l f ts)) /\ (forall a ts, sited l (t_expr_loop l f a ts)) /\
  (forall ts, sited l (t_term l f ts)) /\ (forall a ts, sited l (t_term_loop l f a ts)) /\
  (forall ts, sited l (t_factor l f ts)) /\ (forall ts, sited l (t_comp l f ts)).
Proof.
  intros l. induction f as [|f (E & EL & T & TL & F & C)]; [repeat split; intros; apply sited_fuel|].
  split; [|split; [|split; [|split; [|split]]]].
  - intros ts. cbn [t_expr]. apply sited_bind; [apply T|]. intros [a ts1]. apply EL.
  - intros a [|t ts]; cbn [t_expr_loop]; [apply sited_ub|]. destruct (tok_at_end t); [apply sited_ok|]. destruct (addop t); [|apply sited_ok].
    apply sited_bind; [apply T|]. intros [r ts1]. apply EL.
  - intros ts. cbn [t_term]. apply sited_bind; [apply F|]. intros [a ts1]. apply TL.
  - intros a [|t ts]; cbn [t_term_loop]; [apply sited_ub|]. destruct (tok_at_end t); [apply sited_ok|]. destruct (mulop t); [|apply sited_ok].
    apply sited_bind; [apply F|]. intros [r ts1]. apply TL.
  - intros [|t ts]; cbn [t_factor]; [apply sited_ub|]. destruct (unaryop t); [|apply C]. apply sited_bind; [apply F|]. intros [r ts1]. apply sited_ok.
  - intros [|t ts]; cbn [t_comp]; [apply sited_ub|].
    pose proof (sited_ident l true ts) as I1. pose proof (sited_ident l false (t :: ts)) as I2.
    assert (G : sited l (if is_char "@" t then match t_ident l true ts with Some r => r | None => let^ t' := t_front ts in err_at E_parse ("Expected identifier after '@', found " ++ token_to_string t') l end
       else match t_ident l false (t :: ts) with Some r => r | None => if is_char "(" t then let^ (e, ts1) := t_expr l f ts in let^ ts2 := t_consume l ")" "close parenthesis" ts1 in POk (e, ts2)
         else err_at E_parse ("Expected expression, found " ++ token_to_string t) l end)).
    { destruct (is_char "@" t).
      - destruct (t_ident l true ts); [exact (I1 _ eq_refl)|]. apply sited_bind; [apply sited_front|]. intros. si.
      - destruct (t_ident l false (t :: ts)); [exact (I2 _ eq_refl)|]. destruct (is_char "(" t); [|si].
        apply sited_bind; [apply E|]. intros [e ts1]. apply sited_bind; [apply sited_consume|]. intros. si. }
    destruct t; try exact G. apply sited_ok.
Qed.
Lemma sited_expr : forall l ts, sited l (t_parse_expr l ts).
Proof. intros l ts. apply sited_exprs. Qed.
Lemma sited_finish : forall l m sfx sam a1 a2 ts, sited l (t_finish l m sfx sam a1 a2 ts).
Proof.
  intros. unfold t_finish. apply sited_bind; [|intros; apply sited_ok]. unfold t_create_instruction. destruct (deduce_mode m sam a1 a2) as [am|e|u|] eqn:D.
  - destruct (_ && _); si.
  - apply QuietProofs.deduce_soft in D. subst e. si.
  - si.
  - si.
Qed.
Ltac st1 := first [apply sited_finish|apply sited_confirm_suffix|apply sited_confirm|apply sited_consume|apply sited_register|apply sited_expr|apply sited_mode
  |apply sited_end_suffix|apply sited_end|apply sited_front|si1].
Lemma sited_bare : forall l m sfx ts, sited l (t_bare l m sfx ts).
Proof. intros. unfold t_bare. repeat st1. Qed.
Lemma sited_operand : forall l m sfx ts, sited l (t_operand l m sfx ts).
Proof. intros. unfold t_operand, t_immediate, t_bracket, t_paren. repeat first [apply sited_bare|st1]. Qed.
Lemma sited_core : forall l ts, sited l (t_parse_instruction_core l ts).
Proof. intros. unfold t_parse_instruction_core. repeat first [apply sited_operand|st1]. Qed.
Lemma sited_convention : forall l ts, sited l (t_return_convention l ts).
Proof. intros. unfold t_return_convention. repeat st1. Qed.
Lemma sited_instruction : forall l ts, sited l (t_parse_instruction l ts).
Proof. intros. unfold t_parse_instruction. repeat first [apply sited_core|apply sited_convention|st1]. Qed.
Lemma sited_list : forall l f acc ts, sited l (t_list l f acc ts).
Proof. intros l. induction f as [|f IH]; intros acc ts; cbn [t_list]; repeat first [apply IH|st1]. Qed.
Lemma sited_directive : forall l ts, sited l (t_parse_directive l ts).
Proof. intros. unfold t_parse_directive, t_mode_part. repeat first [apply sited_list|apply sited_convention|st1]. Qed.
Lemma sited_label : forall l ts, sited l (t_label l ts).
Proof. intros. unfold t_label. repeat st1. Qed.
Lemma sited_loop : forall l f acc ts, sited l (t_parse_loop l f acc ts).
Proof. intros l. induction f as [|f IH]; intros acc ts; cbn [t_parse_loop]; repeat first [apply IH|apply sited_label|apply sited_directive|apply sited_instruction|st1]. Qed.
Lemma sited_parse : forall l ts, sited l (t_parse l ts).
Proof. intros. apply sited_loop. Qed.
Lemma sited_dotted : forall l w, sited l (t_dotted_token l w).
Proof. intros. unfold t_dotted_token. repeat st1. Qed.
Lemma sited_next : forall l s, sited l (t_next_token l s).
Proof.
  intros l s. unfold t_next_token.
  repeat first [apply sited_ok|apply sited_ub|match goal with |- context [match ?x with _ => _ end] => is_var x; destruct x end].
  all: repeat first [apply sited_dotted|si1].
Qed.
Lemma sited_tokens : forall l f s, sited l (t_tokenize_fuel f l s).
Proof. intros l. induction f as [|f IH]; intros s; cbn [t_tokenize_fuel]; repeat first [apply IH|apply sited_next|st1]. Qed.

(** ** The lines of a file. *)
Definition reading (e : err) : Prop := In e [E_token; E_parse; E_no_mode; E_suffix; E_convention].
Lemma entity_kind : forall ld p e, load_entity ld p = Err e -> ~ reading e.
Proof.
  intros ld [n x|s] e H; [discriminate|]. unfold load_entity in H. cbv zeta in H.
  assert (N : forall k : err, In k [E_duplicate; E_logic; E_scope] -> ~ reading k) by (intros k [<-|[<-|[<-|[]]]] X; repeat (destruct X as [X|X]; [discriminate X|]); destruct X).
  assert (P : forall pend m sc e, add_pending m sc pend = Err e -> e = E_duplicate).
  { clear. induction pend as [|[n x] pend IH]; intros m sc e H; [discriminate|]. cbn [add_pending] in H.
    destruct (add_label m sc n x (zlen (md_lines m) - 1)) as [m1|e1|u|] eqn:A; cbn [bind] in H; try discriminate; [exact (IH _ _ _ H)|].
    injection H as <-. revert A. unfold add_label. repeat first [discriminate|let H := fresh in intros H; injection H as <-; reflexivity|match goal with |- context [match ?x with _ => _ end] => destruct x end]. }
  destruct (add_pending _ _ _) as [m1|e1|u|] eqn:A; cbn [bind] in H; try discriminate.
  - apply N. revert H. unfold load_directive. repeat first [discriminate|let H := fresh in intros H; injection H as <-; cbn; tauto|match goal with |- context [match ?x with _ => _ end] => destruct x end].
  - injection H as <-. apply N. rewrite (P _ _ _ _ A). left. reflexivity.
Qed.
Lemma entities_kind : forall es l ld locs e loc, lload_entities l ld locs es = LErr e loc -> ~ reading e.
Proof.
  induction es as [|p es IH]; intros l ld locs e loc H; [discriminate|]. cbn [lload_entities] in H. destruct (load_entity ld p) as [ld1|e1|u|] eqn:L; cbn [at_loc ModelLocation.bare set_location lbind] in H.
  - exact (IH _ _ _ _ _ H).
  - injection H as <- _. exact (entity_kind _ _ _ L).
  - discriminate.
  - discriminate.
Qed.
Lemma line_sited : forall l s, sited l (t_line l s).
Proof. intros l s. unfold t_line. apply sited_bind; [apply sited_tokens|]. intros ts. apply sited_parse. Qed.
Lemma erased : forall A (r : pres A) e, SpecParseText.bare r = Err e -> exists er, r = PErr er /\ re_kind er = e.
Proof. intros A [a|er|u|] e H; try discriminate. injection H as <-. exists er. split; reflexivity. Qed.
Lemma erased_ok : forall A (r : pres A) a, SpecParseText.bare r = Ok a -> r = POk a.
Proof. intros A [a0|er|u|] a H; try discriminate. injection H as <-. reflexivity. Qed.
Definition misread (path : string) (n : Z) (s : string) (e : err) (loc : location) (er : rerror) : Prop :=
  t_line (line_of path n) s = PErr er /\ re_kind er = e /\ re_loc er = loc.
Lemma place_of : forall path n, path <> "" -> loc_update no_location (line_of path n) = line_of path n.
Proof. intros path n P. unfold loc_update, line_of. cbn [loc_path loc_offset]. destruct (String.eqb_spec path ""); [contradiction|reflexivity]. Qed.
Lemma lines_read : forall path file l n ld locs e loc, path <> "" -> loc_path l = path -> lload_lines l n ld locs file = LErr e loc -> reading e ->
  exists before s after er, file = before ++ s :: after /\ Forall (fun t => exists es, contains t es) before /\
    misread path (n + Z.of_nat (List.length before) + 1) s e loc er.
Proof.
  intros path. induction file as [|s file IH]; intros l n ld locs e loc NE P H R; [discriminate|]. cbn [lload_lines] in H. cbv zeta in H.
  assert (LE : loc_update l (Loc "" (AtLine (n + 1))) = line_of path (n + 1)) by (unfold loc_update, line_of; cbn [loc_path loc_offset]; rewrite String.eqb_refl, P; reflexivity).
  rewrite LE in H. destruct (tokenize s) as [ts|e1|u|] eqn:T; cbn [at_loc ModelLocation.bare set_location lbind] in H; try discriminate.
  2: { injection H as <- <-. destruct (erased _ (t_tokenize (line_of path (n + 1)) s) e1) as (er & E & K); [rewrite bare_tokenize; exact T|].
    exists [], s, file, er. split; [reflexivity|]. split; [constructor|]. cbn [List.length]. rewrite Z.add_0_r.
    assert (TL : t_line (line_of path (n + 1)) s = PErr er) by (unfold t_line; rewrite E; reflexivity). split; [exact TL|]. split; [exact K|].
    rewrite (line_sited _ _ _ TL), K. replace (unplaced_kind e1) with false; [reflexivity|].
    destruct (BlameProofs.tokens_says _ _ _ _ E) as [KE _]. rewrite <- K, KE. reflexivity. }
  destruct (parse ts) as [es|e1|u|] eqn:PS.
  - unfold parse_located in H. rewrite PS in H. cbn [at_loc ModelLocation.bare set_location lbind] in H.
    destruct (lload_entities (line_of path (n + 1)) ld locs es) as [[ld1 locs1]|e2 l2|u|] eqn:LEN; cbn [lbind] in H; try discriminate.
    + destruct (IH _ _ _ _ _ _ NE (eq_refl : loc_path (line_of path (n + 1)) = path) H R) as (before & s' & after & er & -> & F & M).
      exists (s :: before), s', after, er. split; [reflexivity|]. split; [constructor; [exists es, ts; split; [exact T|exact PS]|exact F]|].
      cbn [List.length]. rewrite Nat2Z.inj_succ. replace (n + Z.succ (Z.of_nat (List.length before)) + 1) with (n + 1 + Z.of_nat (List.length before) + 1) by lia. exact M.
    + injection H as <- _. destruct (entities_kind _ _ _ _ _ _ LEN R).
  - destruct (erased _ (t_parse (line_of path (n + 1)) ts) e1) as (er & E & K); [rewrite bare_parse; exact PS|].
    assert (TK : t_tokenize (line_of path (n + 1)) s = POk ts) by (apply erased_ok; rewrite bare_tokenize; exact T).
    assert (TL : t_line (line_of path (n + 1)) s = PErr er) by (unfold t_line; rewrite TK; exact E).
    assert (X : e1 = e /\ loc = if unplaced_kind e1 then no_location else loc_update no_location (line_of path (n + 1))).
    { unfold parse_located in H. rewrite PS in H. destruct e1; cbn [at_loc ModelLocation.bare set_location lbind] in H; injection H as <- <-; split; reflexivity. }
    destruct X as [-> ->]. exists [], s, file, er. split; [reflexivity|]. split; [constructor|]. cbn [List.length]. rewrite Z.add_0_r.
    split; [exact TL|]. split; [exact K|]. rewrite (line_sited _ _ _ TL), K. reflexivity.
  - unfold parse_located in H. rewrite PS in H. discriminate.
  - unfold parse_located in H. rewrite PS in H. discriminate.
Qed.
Lemma reading_image : forall e, reading e -> image_kind e = true.
Proof. intros e R. repeat (destruct R as [<-|R]; [reflexivity|]). destruct R. Qed.
Lemma files_read : forall files e loc, Forall (fun f => fst f <> "") files -> lload_files files = LErr e loc -> reading e ->
  exists path before s after er, In (path, before ++ s :: after) files /\ path <> "" /\ Forall (fun t => exists es, contains t es) before /\
    misread path (Z.of_nat (List.length before) + 1) s e loc er.
Proof.
  induction files as [|[path f] files IH]; intros e loc NE H R; [discriminate|]. inversion NE as [|x y NP NF]; subst. cbn [fst] in NP. cbn [lload_files] in H.
  destruct (lload_asm_file path f) as [lm|e1 l1|u|] eqn:L; cbn [lbind] in H; try discriminate.
  - destruct (lload_files files) as [ms|e2 l2|u|] eqn:LF; cbn [lbind] in H; try discriminate. injection H as -> ->.
    destruct (IH _ _ NF eq_refl R) as (p & before & s & after & er & I & REST). exists p, before, s, after, er. split; [right; exact I|exact REST].
  - injection H as -> ->. unfold lload_asm_file in L. destruct (lload_lines _ _ _ _ _) as [[ld locs]|e2 l2|u|] eqn:LL; cbn [lbind] in L; try discriminate.
    + destruct (ld_scopes ld); [discriminate|]. cbn [at_loc ModelLocation.bare set_location] in L. injection L as <- _. apply reading_image in R. discriminate R.
    + injection L as -> ->. destruct (lines_read path _ _ _ _ _ _ _ NP (eq_refl : loc_path (Loc path NoOffset) = path) LL R) as (before & s & after & er & -> & F & M).
      exists path, before, s, after, er. split; [left; reflexivity|]. split; [exact NP|]. split; [exact F|exact M].
Qed.

(** ** The whole program. *)
Lemma unreadable_line : forall fuel sk files ws e l, Forall (fun f => fst f <> "") files -> (forall ws w e l, sk ws w = LErr e l -> ~ reading e) ->
  lassemble fuel sk files = (ws, LErr e l) -> reading e ->
  ws = [] /\ exists path before s after er, In (path, before ++ s :: after) files /\ Forall (fun t => exists es, contains t es) before /\
    t_line (line_of path (Z.of_nat (List.length before) + 1)) s = PErr er /\ re_kind er = e /\ re_loc er = l /\
    error_to_string l (re_text er) = if unplaced_kind e then re_text er else (path ++ ":" ++ dec_string (Z.of_nat (List.length before) + 1) ++ ": " ++ re_text er)%string.
Proof.
  intros fuel sk files ws e l NE SK H R. pose proof (reading_image _ R) as K. destruct (lload_files files) as [ms|e0 l0|u|] eqn:LF.
  - exfalso. pose proof (files_loc files) as FL. rewrite LF in FL.
    assert (LD : forall path file, In (path, file) files -> exists m, load_asm_file file = Ok m).
    { intros path file I. clear - FL I. induction FL as [|f m fs ms L F IH]; [destruct I|]. destruct I as [->|I]; [|exact (IH I)]. destruct L as (_ & L & _). exists (lm_mod m). exact L. }
    assert (NB : forall path file n text, In (path, file) files -> ~ first_bad file n text e).
    { intros path file n text I (before & after & -> & _ & _ & B). destruct (LD _ _ I) as [m L]. rewrite (B after) in L. discriminate L. }
    apply errors_located in H; [|exact NE]. destruct H as [path file n text I B|path file n text I B|path file src b n I E|path file src k n I RD ST BL|path file src before labels s E|E|E|i j path path' file file' src src' mn n k k' E].
    + exact (NB _ _ _ _ I B).
    + exact (NB _ _ _ _ I B).
    + subst e. discriminate K.
    + destruct BL as (before & labels & s & after & s' & E & -> & W & REST). cbv zeta in REST.
      destruct REST as [F|[[X _]|[[X _]|[[X _]|[[X _]|[[X _]|(w & c & SB & [[X _]|(l0 & SX)])]]]]]]; try (subst e; discriminate K).
      * apply clear_fails in F. congruence.
      * exact (SK _ _ _ _ SX R).
    + subst e. discriminate K.
    + subst e. discriminate K.
    + subst e. discriminate K.
    + subst e. discriminate K.
  - unfold lassemble in H. rewrite LF in H. cbn [lwbind] in H. injection H as <- -> ->. split; [reflexivity|].
    destruct (files_read _ _ _ NE LF R) as (path & before & s & after & er & I & NP & F & T & KE & LE). exists path, before, s, after, er.
    split; [exact I|]. split; [exact F|]. split; [exact T|]. split; [exact KE|]. split; [exact LE|].
    pose proof (line_sited _ _ _ T) as X. rewrite LE, KE in X. rewrite X. destruct (unplaced_kind e); [reflexivity|]. rewrite (place_of _ _ NP). apply line_text, NP.
  - unfold lassemble in H. rewrite LF in H. discriminate H.
  - unfold lassemble in H. rewrite LF in H. discriminate H.
Qed.

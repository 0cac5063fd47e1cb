(** Files refused for a label, a module or a block. *)
From Verif Require Import BaseProofs ModelNumeric ModelAddress ModelMnemonic ModelExpr ModelAMode ModelOpcode
  ModelState ModelInstr ModelToken ModelStatement ModelParse ModelMap ModelModule ModelLocation ModelRomText ModelParseText ModelFlagText ModelLoadText
  SpecParseText SpecLoadText ParseTextProofs BlameProofs PlaceProofs LoadTextProofs.
Open Scope string_scope.
Open Scope list_scope.
Open Scope Z_scope.

Definition load_kind (e : err) : bool := match e with E_duplicate | E_scope => true | _ => false end.
Lemma parse_load : forall ts e, parse ts = Err e -> load_kind e = false.
Proof.
  intros ts e H. rewrite <- (bare_parse no_location) in H. destruct (t_parse no_location ts) as [a|er|u|] eqn:T; try discriminate. injection H as <-.
  destruct (parse_near _ _ _ T) as (pre & t & post & _ & A & _). destruct A as [? ? ?|? ? ? ?|? ? ? ? I ?|? ? ? ?|? ?]; try reflexivity.
  repeat (destruct I as [<-|I]; [reflexivity|]). destruct I.
Qed.
Lemma tokenize_load : forall s e, tokenize s = Err e -> load_kind e = false.
Proof.
  intros s e H. rewrite <- (bare_tokenize no_location) in H. destruct (t_tokenize no_location s) as [a|er|u|] eqn:T; try discriminate. injection H as <-.
  destruct (tokens_says _ _ _ _ T) as [-> _]. reflexivity.
Qed.
Lemma entities_app : forall es1 es2 ld, load_entities ld (es1 ++ es2) = let* ld1 := load_entities ld es1 in load_entities ld1 es2.
Proof. induction es1 as [|e es1 IH]; intros es2 ld; [reflexivity|]. cbn [app load_entities]. destruct (load_entity ld e); cbn [bind]; try reflexivity. apply IH. Qed.
Lemma entities_fail : forall es ld e, load_entities ld es = Err e -> exists es1 ent es2 ld1, es = es1 ++ ent :: es2 /\ load_entities ld es1 = Ok ld1 /\ load_entity ld1 ent = Err e.
Proof.
  induction es as [|x es IH]; intros ld e H; [discriminate|]. cbn [load_entities] in H. destruct (load_entity ld x) as [ld1|e1|u|] eqn:L; cbn [bind] in H; try discriminate.
  - destruct (IH _ _ H) as (es1 & ent & es2 & ld2 & -> & L1 & L2). exists (x :: es1), ent, es2, ld2. split; [reflexivity|]. split; [cbn [load_entities]; rewrite L; exact L1|exact L2].
  - injection H as ->. exists [], x, es, ld. repeat split. exact L.
Qed.
Lemma lines_entities : forall file ld ld', load_lines ld file = Ok ld' -> exists ess, Forall2 (fun text es => exists ts, tokenize text = Ok ts /\ parse ts = Ok es) file ess /\ load_entities ld (concat ess) = Ok ld'.
Proof.
  induction file as [|s file IH]; intros ld ld' H; cbn [load_lines] in H; [exists []; split; [constructor|exact H]|].
  destruct (tokenize s) as [ts|e|u|] eqn:T; cbn [bind] in H; try discriminate. destruct (parse ts) as [es|e|u|] eqn:P; cbn [bind] in H; try discriminate.
  destruct (load_entities ld es) as [ld1|e|u|] eqn:L; cbn [bind] in H; try discriminate. destruct (IH _ _ H) as (ess & F & LE). exists (es :: ess).
  split; [constructor; [exists ts; split; assumption|exact F]|]. cbn [concat]. rewrite entities_app, L. exact LE.
Qed.
Lemma lines_fail : forall file ld e, load_lines ld file = Err e -> load_kind e = true ->
  exists before text after ess ts es1 ent es2 ld1, file = before ++ text :: after /\ Forall2 (fun text es => exists ts, tokenize text = Ok ts /\ parse ts = Ok es) before ess /\
    tokenize text = Ok ts /\ parse ts = Ok (es1 ++ ent :: es2) /\ load_entities ld (concat ess ++ es1) = Ok ld1 /\ load_entity ld1 ent = Err e.
Proof.
  induction file as [|s file IH]; intros ld e H K; cbn [load_lines] in H; [discriminate|].
  destruct (tokenize s) as [ts|e1|u|] eqn:T; cbn [bind] in H; try discriminate; [|injection H as ->; rewrite (tokenize_load _ _ T) in K; discriminate].
  destruct (parse ts) as [es|e1|u|] eqn:P; cbn [bind] in H; try discriminate; [|injection H as ->; rewrite (parse_load _ _ P) in K; discriminate].
  destruct (load_entities ld es) as [ld1|e1|u|] eqn:L; cbn [bind] in H; try discriminate.
  - destruct (IH _ _ H K) as (before & text & after & ess & ts' & es1 & ent & es2 & ld2 & -> & F & T' & P' & L1 & L2).
    exists (s :: before), text, after, (es :: ess), ts', es1, ent, es2, ld2. split; [reflexivity|]. split; [constructor; [exists ts; split; assumption|exact F]|]. split; [exact T'|]. split; [exact P'|].
    split; [|exact L2]. cbn [concat]. rewrite <- app_assoc, entities_app, L. exact L1.
  - injection H as ->. destruct (entities_fail _ _ _ L) as (es1 & ent & es2 & ld1 & -> & L1 & L2). exists [], s, file, [], ts, es1, ent, es2, ld1. split; [reflexivity|]. split; [constructor|]. repeat split; assumption.
Qed.
Lemma file_fails : forall file e, load_asm_file file = Err e -> load_kind e = true ->
  (e = E_scope /\ exists ld, load_lines (Loader empty_module [] []) file = Ok ld /\ ld_scopes ld <> []) \/
  exists before text after ess ts es1 ent es2 ld er, file = before ++ text :: after /\ Forall2 (fun text es => exists ts, tokenize text = Ok ts /\ parse ts = Ok es) before ess /\
    tokenize text = Ok ts /\ parse ts = Ok (es1 ++ ent :: es2) /\ load_entities (Loader empty_module [] []) (concat ess ++ es1) = Ok ld /\ t_load_entity ld ent = PErr er /\ re_kind er = e.
Proof.
  intros file e H K. unfold load_asm_file in H. destruct (load_lines _ file) as [ld|e1|u|] eqn:L; cbn [bind] in H; try discriminate.
  - left. destruct (ld_scopes ld) eqn:S; [discriminate|]. injection H as <-. split; [reflexivity|]. exists ld. split; [reflexivity|]. rewrite S. discriminate.
  - injection H as ->. right. destruct (lines_fail _ _ _ L K) as (before & text & after & ess & ts & es1 & ent & es2 & ld & E & F & T & P & L1 & L2).
    rewrite <- bare_entity in L2. destruct (t_load_entity ld ent) as [a|er|u|] eqn:TL; try discriminate. injection L2 as <-.
    exists before, text, after, ess, ts, es1, ent, es2, ld, er. repeat (split; [assumption|]). reflexivity.
Qed.

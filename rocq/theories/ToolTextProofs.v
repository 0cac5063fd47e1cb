(** Proofs about reading the text that the programs of util/ print. *)
From Verif Require Import Base ModelNumeric ModelAddress ModelMnemonic ModelExpr ModelAMode ModelOpcode ModelState ModelInstr ModelToken ModelStatement ModelParse ModelMap ModelRom ModelDisasm
  SpecArith SpecText BaseProofs TokenProofs TextProofs ParseProofs PrintProofs ModelTools.
From Verif Require SpecScope.
Open Scope string_scope.
Open Scope list_scope.
Open Scope Z_scope.
Local Opaque parse_instruction parse_directive tokenize.

(** ** Spaces and comments. *)
Lemma spaces_space : forall n, str_all is_space (spaces n) = true.
Proof. induction n as [|n IH]; [reflexivity|exact IH]. Qed.
Lemma trailing_space : forall s w, str_all is_space w = true -> tokenize (s ++ w)%string = tokenize s.
Proof.
  intros s [|c w] H; [rewrite sapp_nil_r; reflexivity|]. destruct (split_semicolon s) as [N|(a & b & -> & N)].
  - pose proof (tokenize_space s (String c w) "" H ltac:(discriminate) N) as T. rewrite sapp_nil_r in T. rewrite T, ends_eol. apply then_eol.
  - rewrite sapp_assoc. cbn [String.append]. rewrite !tokenize_comment. reflexivity.
Qed.
Lemma shown_tokens : forall n s t, tokenize (pad_right n s ++ " ; " ++ t)%string = tokenize s.
Proof.
  intros n s t. unfold pad_right. change (" ; " ++ t)%string with (" " ++ String ";" (String " " t))%string. rewrite <- sapp_assoc, tokenize_comment.
  rewrite trailing_space by reflexivity. apply trailing_space. apply spaces_space.
Qed.

(** ** Labels. *)
Lemma lex_colon : forall r, hd_is ":" r = false -> tokenize (String ":" r) = tok_cons (punct ":") (tokenize r).
Proof.
  intros r H. rewrite (tokenize_next ":" r (punct ":") r); [reflexivity|reflexivity|discriminate|].
  rewrite next_token_eq. unfold next_alt. rewrite H. reflexivity.
Qed.
Definition label_text (l : string) : string := if String.eqb l "" then "" else (l ++ ":")%string.
Definition label_list (l : string) : list (string * bool) := if String.eqb l "" then [] else [(l, false)].
Definition label_tokens (l : string) : list token := if String.eqb l "" then [] else [TIdent l; punct ":"].
Lemma label_lex : forall l n s ts, (l <> "" -> identifier l) -> tokenize s = Ok ts -> tokenize (pad_right n (label_text l) ++ " " ++ s)%string = Ok (label_tokens l ++ ts).
Proof.
  intros l n s ts I T. unfold label_text, label_tokens, pad_right. destruct (String.eqb_spec l "") as [->|N].
  - cbn [String.append app]. rewrite leading_space by apply spaces_space. rewrite lex_space. exact T.
  - rewrite !sapp_assoc. set (k := (n - String.length (l ++ ":"))%nat). clearbody k.
    assert (R : tokenize (spaces k ++ " " ++ s)%string = Ok ts) by (rewrite leading_space by apply spaces_space; cbn [String.append]; rewrite lex_space; exact T).
    apply (lex_ident l (I N) (":" ++ spaces k ++ " " ++ s)%string); [reflexivity|].
    change (":" ++ spaces k ++ " " ++ s)%string with (String ":" (spaces k ++ " " ++ s)). rewrite lex_colon; [rewrite R; reflexivity|]. destruct k; reflexivity.
Qed.
Lemma loop_more : forall f acc ts l, parse_loop f acc ts = Ok l -> exists l', l = acc ++ l' /\ forall acc' g, (f <= g)%nat -> parse_loop g acc' ts = Ok (acc' ++ l').
Proof.
  induction f as [|f IH]; intros acc ts l H; [discriminate H|]. rewrite parse_loop_eq in H.
  assert (Z : forall acc' g (X : nat -> list parsed -> res (list parsed)) l', (forall acc' g, (f <= g)%nat -> X g acc' = Ok (acc' ++ l')) -> (S f <= g)%nat -> exists g', g = S g' /\ X g' acc' = Ok (acc' ++ l')).
  { intros acc' g X l' HX LE. destruct g as [|g]; [lia|]. exists g. split; [reflexivity|]. apply HX. lia. }
  destruct ts as [|t ts]; [injection H as <-; exists []; split; [symmetry; apply app_nil_r|]; intros acc' [|g] LE; [lia|]; rewrite parse_loop_eq, app_nil_r; reflexivity|].
  destruct (p_label (t :: ts)) as [[[lab ts1] cont]|e|u|] eqn:PL; try discriminate H. cbn [bind] in H.
  assert (GO : forall l' X, (forall acc' g, (f <= g)%nat -> X g acc' = Ok (acc' ++ l')) ->
     (forall g acc', parse_loop (S g) acc' (t :: ts) = X g (acc' ++ lab)) -> forall acc' g, (S f <= g)%nat -> parse_loop g acc' (t :: ts) = Ok (acc' ++ lab ++ l')).
  { intros l' X HX E acc' g LE. destruct (Z (acc' ++ lab) g X l' HX LE) as (g' & -> & HG). rewrite E, HG, app_assoc. reflexivity. }
  destruct cont.
  - destruct (IH _ _ _ H) as (l' & -> & M). exists (lab ++ l'). split; [rewrite app_assoc; reflexivity|].
    apply (GO l' (fun g acc' => parse_loop g acc' ts1)); [exact M|]. intros g acc'. rewrite parse_loop_eq, PL. reflexivity.
  - assert (G2 : exists l', l = (acc ++ lab) ++ l' /\ forall acc' g, (f <= g)%nat -> stmt_part g acc' ts1 = Ok (acc' ++ l')).
    { unfold stmt_part in *. destruct (front ts1) as [t1|e|u|]; try discriminate H. cbn [bind] in *. destruct (tok_at_end t1).
      { injection H as <-. exists []. rewrite !app_nil_r. split; [reflexivity|]. intros acc' g _. rewrite app_nil_r. reflexivity. }
      assert (ST : forall s ts2, parse_loop f ((acc ++ lab) ++ [PStmt s]) ts2 = Ok l -> exists l', l = (acc ++ lab) ++ l' /\ forall acc' g, (f <= g)%nat -> parse_loop g (acc' ++ [PStmt s]) ts2 = Ok (acc' ++ l')).
      { intros s ts2 P. destruct (IH _ _ _ P) as (l' & -> & M). exists (PStmt s :: l'). split; [rewrite <- (app_assoc _ [PStmt s]); reflexivity|].
        intros acc' g LE. rewrite (M _ g LE), <- app_assoc. reflexivity. }
      destruct (is_char "{" t1 || is_char "}" t1); [apply ST in H; exact H|]. destruct (tok_dir t1).
      - destruct (parse_directive ts1) as [[x0 ts2]|e|u|]; try discriminate H. cbn [bind] in *. destruct (at_end ts2) as [b|e|u|]; try discriminate H. cbn [bind] in *.
        destruct b; [|discriminate H]. apply ST in H. exact H.
      - destruct (tok_mnem t1); [|discriminate H]. destruct (parse_instruction ts1) as [[x0 ts2]|e|u|]; try discriminate H. cbn [bind] in *. destruct (at_end ts2) as [b|e|u|]; try discriminate H. cbn [bind] in *.
        destruct b; [|discriminate H]. apply ST in H. exact H. }
    destruct G2 as (l' & -> & M). exists (lab ++ l'). split; [rewrite app_assoc; reflexivity|].
    apply (GO l' (fun g acc' => stmt_part g acc' ts1)); [exact M|]. intros g acc'. rewrite parse_loop_eq, PL. reflexivity.
Qed.
Definition label_parsed (l : string) : list parsed := map (fun p => PLabel (fst p) (snd p)) (label_list l).
Lemma label_parse : forall l ts es, parse ts = Ok es -> parse (label_tokens l ++ ts) = Ok (label_parsed l ++ es).
Proof.
  intros l ts es P. unfold label_tokens, label_parsed, label_list. destruct (String.eqb_spec l "") as [->|N]; [exact P|].
  unfold parse in *. destruct (loop_more _ _ _ _ P) as (l' & E & M). cbn [app] in E. subst l'. cbn [map fst snd app List.length].
  rewrite parse_loop_eq. change (p_label (TIdent l :: punct ":" :: ts)) with (Ok ([PLabel l false], ts, true)). cbn [bind].
  rewrite M by lia. reflexivity.
Qed.
(** ** Directives. *)
Local Transparent parse_directive tokenize.
Lemma lex_dir : forall w d r ts, str_all is_ident_char w = true -> dotted_token (String "." w) = Ok (TDir d) -> ends_word r -> tokenize r = Ok ts -> tokenize (String "." w ++ r)%string = Ok (TDir d :: ts).
Proof.
  intros w d r ts A D E T. cbn [String.append]. rewrite (tokenize_next "." (w ++ r) (TDir d) r); [rewrite T; reflexivity|reflexivity|discriminate|].
  transitivity (let (w0, rest) := span is_ident_char (w ++ r) in let* t := dotted_token (String "." w0) in Ok (t, rest)); [reflexivity|].
  rewrite (span_exact is_ident_char w r A E), D. reflexivity.
Qed.
Definition org_stmt (a : Z) : statement := SDir (Directive D_org (Some (ELit a T_long)) default_flags RC_default []).
Lemma lit_text : forall a, addr24 a -> address_to_string a = lit_to_string a T_long.
Proof.
  intros a A. unfold address_to_string, lit_to_string. replace (cast_to T_long a) with a; [reflexivity|].
  cbn [cast_to]. change 0xffffff with (Z.ones 24). rewrite Z.land_ones by lia. symmetry. apply Z.mod_small. exact A.
Qed.
Lemma cast_addr : forall a, addr24 a -> cast_to T_long a = a.
Proof. intros a A. cbn [cast_to]. change 0xffffff with (Z.ones 24). rewrite Z.land_ones by lia. apply Z.mod_small. exact A. Qed.
Lemma org_read : forall a, addr24 a -> exists ts, tokenize (org_line a) = Ok ts /\ parse ts = Ok [PStmt (org_stmt a)].
Proof.
  intros a A. exists [TDir D_org; TLit a T_long; TEol]. split.
  2:{ pose proof (operand_parse [TLit a T_long] (ELit a T_long) TEol [] (conj eq_refl (cast_addr a A)) (ender_stops _ ltac:(left; reflexivity))) as P. cbn [app] in P.
      unfold parse. cbn [List.length]. rewrite parse_loop_eq. cbn [p_label front bind is_punct stmt_part tok_at_end is_eol is_char tok_dir orb]. unfold parse_directive. cbn [directive_type_by_name].
      rewrite P. reflexivity. }
  unfold org_line. rewrite lit_text by exact A. change ("         .org " ++ lit_to_string a T_long)%string with (spaces 9 ++ (".org" ++ (" " ++ lit_to_string a T_long)))%string.
  rewrite leading_space by apply spaces_space. apply lex_dir; [reflexivity|vm_compute; reflexivity|reflexivity|]. cbn [String.append]. rewrite lex_space.
  pose proof (lex_lit a T_long ltac:(auto) (cast_addr a A) "" [TEol] eq_refl ends_eol) as L. rewrite sapp_nil_r in L. exact L.
Qed.
Definition entry_stmt (g : flags) : statement := SDir (Directive D_entry None g RC_default []).
Definition entry_flags (f : flags) : flags := match flags_from_name (flags_to_name f) with Some g => g | None => f end.
Lemma entry_read : forall l f, (l <> "" -> identifier l) -> bit_known (fl_c f) = false ->
  exists ts, tokenize (pad_right 8 (label_text l) ++ " .entry " ++ flags_to_string f)%string = Ok ts /\ parse ts = Ok (label_parsed l ++ [PStmt (entry_stmt (entry_flags f))]).
Proof.
  intros l f I C. destruct (flags_name_read f) as (g & G). unfold entry_flags. rewrite G.
  assert (F : flags_to_string f = flags_to_name f) by (unfold flags_to_string; destruct (fl_c f); try discriminate C; cbn; apply sapp_nil_r). rewrite F.
  exists (label_tokens l ++ [TDir D_entry; TIdent (flags_to_name f); TEol]). split.
  - change (" .entry " ++ flags_to_name f)%string with (" " ++ (".entry" ++ (" " ++ flags_to_name f)))%string. apply label_lex; [exact I|].
    apply lex_dir; [reflexivity|vm_compute; reflexivity|reflexivity|]. cbn [String.append]. rewrite lex_space.
    pose proof (lex_ident _ (flags_name_ident f) "" [TEol] eq_refl ends_eol) as L. rewrite sapp_nil_r in L. exact L.
  - apply label_parse. unfold parse. cbn [List.length]. rewrite parse_loop_eq. cbn. unfold parse_directive. cbn. rewrite G. reflexivity.
Qed.
Definition no_semi (s : string) : bool := str_all (fun d => negb (Ascii.eqb d ";")) s.
Lemma str_all_app : forall f s t, str_all f s = true -> str_all f t = true -> str_all f (s ++ t)%string = true.
Proof. induction s as [|c s IH]; intros t H T; [exact T|]. cbn [str_all String.append] in *. apply andb_true_iff in H. destruct H as [H1 H2]. rewrite H1, (IH _ H2 T). reflexivity. Qed.
Lemma ident_semi : forall s, str_all is_ident_char s = true -> no_semi s = true.
Proof.
  intros s. unfold no_semi. induction s as [|c s IH]; intros H; [reflexivity|]. cbn [str_all] in *. apply andb_true_iff in H. destruct H as [H1 H2]. rewrite (IH H2), andb_true_r.
  destruct c as [[] [] [] [] [] [] [] []]; try discriminate H1; reflexivity.
Qed.
Lemma spaces_semi : forall n, no_semi (spaces n) = true.
Proof. induction n as [|n IH]; [reflexivity|exact IH]. Qed.
Lemma identifier_semi : forall s, identifier s -> no_semi s = true.
Proof.
  intros s (c & w & -> & F & A & _). unfold no_semi. cbn [str_all]. fold (no_semi w). rewrite ident_semi by exact A. destruct c as [[] [] [] [] [] [] [] []]; try discriminate F; reflexivity.
Qed.
(** With a known carry the line can not be read. *)
Lemma entry_unread : forall l f, (l <> "" -> identifier l) -> bit_known (fl_c f) = true ->
  exists e, tokenize (pad_right 8 (label_text l) ++ " .entry " ++ flags_to_string f)%string = Err e.
Proof.
  intros l f I C. assert (E : exists x, flags_to_string f = (flags_to_name f ++ "," ++ " " ++ "c=" ++ x)%string /\ tokenize (String " " ("c=" ++ x)) = Err E_token).
  { unfold flags_to_string. destruct (fl_c f); try discriminate C; [exists "0"|exists "1"]; (split; [reflexivity|vm_compute; reflexivity]). }
  destruct E as (x & -> & T). exists E_token.
  assert (N : no_semi (pad_right 8 (label_text l) ++ " .entry " ++ flags_to_name f ++ ",")%string = true).
  { unfold no_semi. repeat apply str_all_app; try reflexivity; [|apply spaces_semi|apply identifier_semi; apply flags_name_ident].
    unfold label_text. destruct (String.eqb_spec l ""); [reflexivity|]. apply str_all_app; [apply identifier_semi; auto|reflexivity]. }
  replace (pad_right 8 (label_text l) ++ " .entry " ++ flags_to_name f ++ "," ++ " " ++ "c=" ++ x)%string with
    ((pad_right 8 (label_text l) ++ " .entry " ++ flags_to_name f ++ ",") ++ String " " ("c=" ++ x))%string.
  2:{ rewrite !sapp_assoc. reflexivity. }
  rewrite tokenize_sep by (exact N || reflexivity). rewrite T.
  destruct (tokenize_shape (pad_right 8 (label_text l) ++ " .entry " ++ flags_to_name f ++ ",")%string) as [(b & Y & _)|(e & Y)]; rewrite Y; [reflexivity|].
  exfalso. clear T. destruct (flags_name_read f) as (g & G).
  assert (W : tokenize (pad_right 8 (label_text l) ++ " .entry " ++ flags_to_name f ++ ",")%string = Ok (label_tokens l ++ [TDir D_entry; TIdent (flags_to_name f); punct ","; TEol])).
  { change (" .entry " ++ flags_to_name f ++ ",")%string with (" " ++ (".entry" ++ (" " ++ flags_to_name f ++ ",")))%string. apply label_lex; [exact I|].
    apply lex_dir; [reflexivity|vm_compute; reflexivity|reflexivity|]. cbn [String.append]. rewrite lex_space. apply (lex_ident _ (flags_name_ident f) ","); [reflexivity|vm_compute; reflexivity]. }
  rewrite W in Y. discriminate Y.
Qed.

(** ** Listings. *)
Local Opaque parse tokenize.
Definition reads_line (line : string) (es : list parsed) : Prop := exists ts, tokenize line = Ok ts /\ parse ts = Ok es.
Definition entry_src (c : dinstr) (s : statement) : SpecScope.source :=
  if di_entry c then [(label_list (di_label c), entry_stmt (entry_flags (es_flags (di_cur c)))); ([], s)] else [(label_list (di_label c), s)].
Fixpoint src_of (mk : dinstr -> instr -> statement) (pc : Z) (m : omap dinstr) (is : list instr) : SpecScope.source :=
  match m, is with
  | (a, c) :: m', i :: is' => (if a =? pc then [] else [([], org_stmt a)]) ++ entry_src c (mk c i) ++ src_of mk (add_wrapped a (instr_size (di_instr c))) m' is'
  | _, _ => []
  end.
Definition shows (kv : Z * dinstr) (i : instr) : Prop :=
  addr24 (fst kv) /\ (di_label (snd kv) <> "" -> identifier (di_label (snd kv))) /\
  (di_entry (snd kv) = true -> bit_known (fl_c (es_flags (di_cur (snd kv)))) = false) /\ reads_line (instr_to_string (di_instr (snd kv))) [PStmt (SInstr i)].
Lemma statements_label : forall l s tail, SpecScope.statements [] (label_parsed l ++ PStmt s :: tail) = (label_list l, s) :: SpecScope.statements [] tail.
Proof. intros l s tail. unfold label_parsed, label_list. destruct (String.eqb l ""); reflexivity. Qed.
Lemma text_read : forall l c i pc, (l <> "" -> identifier l) -> reads_line (instr_to_string (di_instr c)) [PStmt (SInstr i)] ->
  reads_line (pad_right 35 (pad_right 8 (label_text l) ++ " " ++ instr_to_string (di_instr c)) ++ " ; " ++ address_to_string pc ++ " " ++ flags_to_string (es_flags (di_next c)))%string (label_parsed l ++ [PStmt (SInstr i)]).
Proof.
  intros l c i pc I (ts & T & P). exists (label_tokens l ++ ts). split; [|apply label_parse; exact P]. rewrite shown_tokens. apply label_lex; assumption.
Qed.
Lemma entry_lines_read : forall a c i, shows (a, c) i -> exists ess, Forall2 reads_line (entry_lines a c) ess /\
  forall tail, SpecScope.statements [] (concat ess ++ tail) = entry_src c (SInstr i) ++ SpecScope.statements [] tail.
Proof.
  intros a c i (A & I & E & R). cbn [fst snd] in *. unfold entry_lines, entry_src. fold (label_text (di_label c)). destruct (di_entry c).
  - destruct (entry_read _ _ I (E eq_refl)) as (ts & T & P). exists [label_parsed (di_label c) ++ [PStmt (entry_stmt (entry_flags (es_flags (di_cur c))))]; [PStmt (SInstr i)]]. split.
    + constructor; [exists ts; auto|]. constructor; [|constructor]. apply (text_read "" c i a); [congruence|exact R].
    + intros tail. cbn [concat]. rewrite app_nil_r, <- !app_assoc. cbn [app]. rewrite statements_label. reflexivity.
  - exists [label_parsed (di_label c) ++ [PStmt (SInstr i)]]. split.
    + constructor; [|constructor]. apply (text_read (di_label c) c i a); assumption.
    + intros tail. cbn [concat]. rewrite app_nil_r, <- !app_assoc. cbn [app]. rewrite statements_label. reflexivity.
Qed.
Lemma lines_read : forall m is, Forall2 shows m is -> forall pc, exists ess, Forall2 reads_line (listing_lines pc m) ess /\
  forall tail, SpecScope.statements [] (concat ess ++ tail) = src_of (fun _ => SInstr) pc m is ++ SpecScope.statements [] tail.
Proof.
  intros m is F. induction F as [|[a c] i m is S F IH]; intros pc; [exists []; split; [constructor|reflexivity]|].
  cbn [listing_lines src_of]. destruct (entry_lines_read _ _ _ S) as (e1 & R1 & S1). destruct (IH (add_wrapped a (instr_size (di_instr c)))) as (e2 & R2 & S2).
  destruct (a =? pc).
  - exists (e1 ++ e2). cbn [app]. split; [apply Forall2_app; assumption|]. intros tail. rewrite concat_app, <- app_assoc, S1, S2. cbn [app]. rewrite <- !app_assoc. reflexivity.
  - exists ([PStmt (org_stmt a)] :: e1 ++ e2). cbn [app]. split; [constructor; [apply org_read; apply S|apply Forall2_app; assumption]|].
    intros tail. cbn [concat app SpecScope.statements]. rewrite concat_app, <- app_assoc, S1, S2. rewrite <- !app_assoc. reflexivity.
Qed.
Definition listing_src (mk : dinstr -> instr -> statement) (m : omap dinstr) (is : list instr) : SpecScope.source :=
  match m with [] => [] | (a, _) :: _ => ([], org_stmt a) :: src_of mk a m is end.
Lemma header_read : forall t, reads_line (String ";" t) [].
Proof. Local Transparent parse. intros t. exists [TEol]. split; [apply tokenize_comment0|reflexivity]. Local Opaque parse. Qed.
Lemma listing_read : forall m is, Forall2 shows m is -> SpecScope.reads (listing m) (listing_src (fun _ => SInstr) m is).
Proof.
  intros m is F. destruct m as [|[a c] m].
  - exists [[]]. split; [constructor; [apply (header_read " Disassembled no instructions.")|constructor]|reflexivity].
  - destruct (lines_read _ _ F a) as (ess & R & S). exists ([] :: [PStmt (org_stmt a)] :: ess). split.
    + constructor; [apply header_read|]. constructor; [|exact R]. apply org_read. inversion F as [|? ? ? ? X _]; subst. apply X.
    + cbn [concat app SpecScope.statements listing_src]. specialize (S []). rewrite !app_nil_r in S. rewrite S. reflexivity.
Qed.
(** A listing with a known carry can not be read. *)
Lemma listing_unread : forall m a c src, In (a, c) m -> di_entry c = true -> (di_label c <> "" -> identifier (di_label c)) -> bit_known (fl_c (es_flags (di_cur c))) = true -> ~ SpecScope.reads (listing m) src.
Proof.
  intros m a c src IN E I C (ess & F & _). destruct (entry_unread _ _ I C) as (e & T).
  assert (L : In (pad_right 8 (label_text (di_label c)) ++ " .entry " ++ flags_to_string (es_flags (di_cur c)))%string (listing m)).
  { assert (G : forall m pc, In (a, c) m -> In (pad_right 8 (label_text (di_label c)) ++ " .entry " ++ flags_to_string (es_flags (di_cur c)))%string (listing_lines pc m)).
    { clear - E. induction m as [|[b x] m IH]; intros pc IN; [destruct IN|]. cbn [listing_lines]. apply in_or_app. right. apply in_or_app. destruct IN as [X|IN]; [|right; apply IH; exact IN].
      injection X as -> ->. left. unfold entry_lines. rewrite E. left. reflexivity. }
    destruct m as [|[b x] m]; [destruct IN|]. right. right. apply G. exact IN. }
  revert L T. generalize (pad_right 8 (label_text (di_label c)) ++ " .entry " ++ flags_to_string (es_flags (di_cur c)))%string as line. clear - F. intros line L T.
  induction F as [|x es file ess (ts & T' & _) F IH]; [destruct L|]. destruct L as [->|L]; [congruence|auto].
Qed.

(** Comments before a file change nothing. *)
Definition comment (s : string) : Prop := exists t, s = String ";" t.
Lemma comments_read : forall out file src, Forall comment out -> (SpecScope.reads (out ++ file) src <-> SpecScope.reads file src).
Proof.
  intros out file src C. induction C as [|s out (t & ->) C IH]; [reflexivity|]. rewrite <- IH. cbn [app]. split.
  - intros (ess & F & E). inversion F as [|? es ? ess' (ts & T & P) F']; subst. destruct (header_read t) as (ts' & T' & P'). assert (ts = ts') by congruence. subst ts'. assert (es = []) by congruence. subst es.
    exists ess'. split; [exact F'|reflexivity].
  - intros (ess & F & E). exists ([] :: ess). split; [constructor; [apply header_read|exact F]|exact E].
Qed.

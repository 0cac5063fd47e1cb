(** Proofs about the lines of files. *)
From Verif Require Import Base ModelNumeric ModelAddress ModelMnemonic ModelExpr ModelAMode ModelOpcode ModelState ModelInstr ModelToken ModelStatement ModelParse ModelMap ModelRom ModelModule ModelAssembler
  SpecText SpecFile BaseProofs TokenProofs TextProofs ToolTextProofs ModelFile.
Open Scope string_scope.
Open Scope list_scope.
Local Opaque tokenize parse.

(** ** Lines. *)
Lemma no_char_nil : forall c, no_char c "".
Proof. intros c [|x a] b H; discriminate H. Qed.
Lemma no_char_cons : forall c x s, no_char c (String x s) <-> x <> c /\ no_char c s.
Proof.
  intros c x s. split.
  - intros H. split; [intros ->; apply (H "" s); reflexivity|]. intros a b E. apply (H (String x a) b). cbn. rewrite E. reflexivity.
  - intros [N H] [|y a] b E; cbn in E; injection E as E1 E2; [congruence|]. eapply H. exact E2.
Qed.
Lemma read_nil : forall t, read_lines t = [] <-> t = "".
Proof.
  intros [|c t]; [split; reflexivity|]. cbn [read_lines]. split; [|discriminate].
  destruct (Ascii.eqb c newline); [discriminate|]. destruct (read_lines t); discriminate.
Qed.
Lemma read_one_line : forall t, Forall one_line (read_lines t).
Proof.
  induction t as [|c t IH]; [constructor|]. cbn [read_lines]. destruct (Ascii.eqb_spec c newline) as [->|N].
  - constructor; [apply no_char_nil|exact IH].
  - destruct (read_lines t) as [|l ls].
    + constructor; [|constructor]. apply no_char_cons. split; [exact N|apply no_char_nil].
    + inversion IH; subst. constructor; [|assumption]. apply no_char_cons. split; [exact N|assumption].
Qed.
Lemma read_has : forall t, has_lines t (read_lines t).
Proof.
  intros t. split; [apply read_one_line|]. induction t as [|c t IH]; [left; reflexivity|].
  cbn [read_lines]. destruct (Ascii.eqb_spec c newline) as [->|N].
  - destruct IH as [IH|(ls' & l & E & L & IH)].
    + left. cbn [written_out append]. rewrite <- IH. reflexivity.
    + right. exists ("" :: ls'), l. rewrite E. split; [reflexivity|]. split; [exact L|]. cbn [written_out append]. rewrite <- IH. reflexivity.
  - destruct (read_lines t) as [|l0 ls0] eqn:R.
    + apply read_nil in R. subst t. right. exists [], (String c ""). split; [reflexivity|]. split; [discriminate|reflexivity].
    + destruct IH as [IH|(ls' & l & E & L & IH)].
      * left. cbn [written_out append]. cbn [written_out] in IH. rewrite <- IH. reflexivity.
      * right. destruct ls' as [|l1 ls'].
        { cbn in E. injection E as -> ->. exists [], (String c l). split; [reflexivity|]. split; [discriminate|]. cbn in IH |- *. rewrite <- IH. reflexivity. }
        cbn [app] in E. injection E as -> ->. exists (String c l1 :: ls'), l. split; [reflexivity|]. split; [exact L|]. cbn [written_out append] in IH |- *. rewrite <- IH. reflexivity.
Qed.
Lemma read_line : forall l t, one_line l -> read_lines (l ++ String newline t)%string = l :: read_lines t.
Proof.
  induction l as [|c l IH]; intros t H; [reflexivity|]. apply no_char_cons in H. destruct H as [N H]. cbn [append read_lines].
  destruct (Ascii.eqb_spec c newline); [contradiction|]. rewrite (IH _ H). reflexivity.
Qed.
Lemma read_last : forall l, one_line l -> l <> "" -> read_lines l = [l].
Proof.
  induction l as [|c l IH]; intros H N; [congruence|]. apply no_char_cons in H. destruct H as [NC H]. cbn [read_lines].
  destruct (Ascii.eqb_spec c newline); [contradiction|]. destruct l as [|c2 l]; [reflexivity|]. rewrite IH; [reflexivity|exact H|discriminate].
Qed.
Lemma read_written : forall ls t, Forall one_line ls -> read_lines (written_out ls ++ t)%string = ls ++ read_lines t.
Proof.
  induction ls as [|l ls IH]; intros t F; [reflexivity|]. inversion F; subst. cbn [written_out app]. rewrite sapp_assoc. cbn [append].
  rewrite read_line by assumption. rewrite IH by assumption. reflexivity.
Qed.
Lemma lines_exact : forall t ls, read_lines t = ls <-> has_lines t ls.
Proof.
  intros t ls. split; [intros <-; apply read_has|]. intros [F [->|(ls' & l & -> & N & ->)]].
  - pose proof (read_written ls "" F) as H. rewrite sapp_nil_r, app_nil_r in H. exact H.
  - apply Forall_app in F. destruct F as [F1 F2]. inversion F2; subst. rewrite read_written by exact F1. rewrite read_last by assumption. reflexivity.
Qed.
Lemma lines_back : forall ls, Forall one_line ls -> read_lines (written_out ls) = ls.
Proof. intros ls F. apply lines_exact. split; [exact F|left; reflexivity]. Qed.

(** ** Space at the ends of lines. *)
Lemma same_tokens : forall s t, same_line s t -> tokenize s = tokenize t.
Proof.
  intros s t (a & b & c & d & u & A & B & C & D & -> & ->). apply spaces_all in A, B, C, D.
  rewrite (leading_space a _ A), (leading_space c _ C), (trailing_space u b B), (trailing_space u d D). reflexivity.
Qed.
Lemma same_lines_load : forall f g, Forall2 same_line f g -> forall ld, load_lines ld f = load_lines ld g.
Proof.
  intros f g F. induction F as [|s t f g S F IH]; intros ld; [reflexivity|]. cbn [load_lines]. rewrite (same_tokens _ _ S).
  destruct (tokenize t) as [ts|e|u|]; cbn [bind]; try reflexivity. destruct (parse ts) as [es|e|u|]; cbn [bind]; try reflexivity.
  destruct (load_entities ld es) as [ld'|e|u|]; cbn [bind]; try reflexivity. apply IH.
Qed.
Lemma same_file : forall f g, Forall2 same_line f g -> load_asm_file f = load_asm_file g.
Proof. intros f g F. unfold load_asm_file. rewrite (same_lines_load _ _ F). reflexivity. Qed.
Lemma assemble_cong : forall (f g : string -> list string), (forall t, load_asm_file (f t) = load_asm_file (g t)) ->
  forall ts fuel sk, assemble fuel sk (map f ts) = assemble fuel sk (map g ts).
Proof.
  intros f g H ts fuel sk. unfold assemble. replace (add_files empty_assembler (map g ts)) with (add_files empty_assembler (map f ts)); [reflexivity|].
  generalize empty_assembler. induction ts as [|t ts IH]; intros a; [reflexivity|]. cbn [map add_files]. unfold add_asm_file. rewrite H.
  destruct (load_asm_file (g t)) as [m|e|u|]; cbn [bind]; try reflexivity. apply IH.
Qed.

(** ** Fake files. *)
Lemma all_spaces : forall s, str_all is_space s = true -> spaces s.
Proof.
  induction s as [|c s IH]; intros H [|x a] d b E; try discriminate E; cbn in H; apply andb_true_iff in H; destruct H as [H1 H2]; cbn in E; injection E as E1 E2; [subst; exact H1|].
  eapply IH; eassumption.
Qed.
Lemma trailing_shape : forall s, exists w, s = (strip_trailing s ++ w)%string /\ str_all is_space w = true.
Proof.
  induction s as [|c s (w & E & H)]; [exists ""; split; reflexivity|]. cbn [strip_trailing]. destruct (strip_trailing s) as [|x r].
  - cbn in E. subst w. destruct (is_space c) eqn:S; [exists (String c s); cbn; rewrite S; auto|exists s; auto].
  - exists w. split; [cbn [append]; f_equal; exact E|exact H].
Qed.
Lemma strip_same : forall s, same_line (strip_whitespace s) s.
Proof.
  intros s. unfold strip_whitespace. destruct (strip_leading_shape s) as (a & E & A & _). destruct (trailing_shape (strip_leading s)) as (b & E2 & B).
  exists "", "", a, b, (strip_trailing (strip_leading s)). repeat (split; [apply all_spaces; first [assumption|reflexivity]|]).
  split; [rewrite sapp_nil_r; reflexivity|]. rewrite <- E2. exact E.
Qed.
Lemma same_line_refl : forall s, same_line s s.
Proof. intros s. exists "", "", "", "", s. repeat (split; [apply all_spaces; reflexivity|]). split; cbn; rewrite sapp_nil_r; reflexivity. Qed.
Lemma strip_lines : forall ls, Forall2 same_line (map strip_whitespace ls) ls.
Proof. induction ls; constructor; [apply strip_same|assumption]. Qed.
Lemma split_read : forall t, split_newlines t = read_lines t \/ split_newlines t = read_lines t ++ [""].
Proof.
  induction t as [|c t IH]; [right; reflexivity|]. cbn [split_newlines read_lines]. destruct (Ascii.eqb c newline).
  - destruct IH as [-> | ->]; [left|right]; reflexivity.
  - destruct (read_lines t) as [|l ls]; destruct IH as [-> | ->]; [left|left|left|right]; reflexivity.
Qed.
Lemma load_app_empty : forall f ld, load_lines ld (f ++ [""]) = load_lines ld f.
Proof.
  induction f as [|s f IH]; intros ld; cbn [load_lines app].
  - change (tokenize "") with (Ok [TEol]). cbn [bind]. change (parse [TEol]) with (Ok (@nil parsed)). reflexivity.
  - destruct (tokenize s) as [ts|e|u|]; cbn [bind]; try reflexivity. destruct (parse ts) as [es|e|u|]; cbn [bind]; try reflexivity.
    destruct (load_entities ld es) as [ld'|e|u|]; cbn [bind]; try reflexivity. apply IH.
Qed.
Lemma fake_loads : forall t, load_asm_file (fake_file t) = load_asm_file (read_lines t).
Proof.
  intros t. unfold fake_file. rewrite (same_file _ _ (strip_lines (split_newlines t))).
  destruct (split_read t) as [-> | ->]; [reflexivity|]. unfold load_asm_file. rewrite load_app_empty. reflexivity.
Qed.

(** ** Carriage returns. *)
Lemma returns_written : forall t ls, read_lines t = ls -> exists ls', read_lines (with_returns t) = ls' /\
  Forall2 (fun s s' => s' = s \/ s' = (s ++ String "013" "")%string) ls ls'.
Proof.
  intros t ls <-. exists (read_lines (with_returns t)). split; [reflexivity|]. induction t as [|c t IH]; [constructor|].
  cbn [with_returns read_lines]. change eol with newline. destruct (Ascii.eqb c newline) eqn:E.
  - cbn [read_lines]. rewrite (proj2 (Ascii.eqb_eq newline newline) eq_refl). change (Ascii.eqb "013" newline) with false. cbn [read_lines]. constructor; [right; reflexivity|exact IH].
  - cbn [read_lines]. rewrite E. inversion IH as [E1 E2|s s' ls ls' [S|S] F E1 E2].
    + constructor; [left; reflexivity|constructor].
    + constructor; [left; f_equal; exact S|exact F].
    + constructor; [right; cbn [append]; f_equal; exact S|exact F].
Qed.
Lemma returns_load : forall t, load_asm_file (read_lines (with_returns t)) = load_asm_file (read_lines t).
Proof.
  intros t. destruct (returns_written t _ eq_refl) as (ls' & E & F). rewrite E. symmetry. apply same_file. clear E.
  induction F as [|s s' ls ls' [-> | ->] F IH]; constructor; try exact IH; [apply same_line_refl|].
  exists "", "", "", (String "013" ""), s. repeat (split; [apply all_spaces; reflexivity|]). split; cbn; rewrite ?sapp_nil_r; reflexivity.
Qed.

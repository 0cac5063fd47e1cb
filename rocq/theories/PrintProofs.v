(** Proofs about printing instructions and reading them back. *)
From Verif Require Import Base ModelNumeric ModelAddress ModelMnemonic ModelExpr ModelAMode ModelOpcode ModelState ModelInstr ModelToken ModelStatement ModelParse
  SpecArith SpecNames SpecInstr SpecText Spec65816 BaseProofs NameProofs InstrProofs ModeProofs TokenProofs TextProofs ParseProofs LineProofs.
Open Scope string_scope.
Open Scope Z_scope.

(** ** Numbers. *)
Lemma hex_digit_ok : forall d, 0 <= d < 16 -> digit 16 (hex_digit d) d.
Proof.
  intros d H. assert (C : In d [0;1;2;3;4;5;6;7;8;9;10;11;12;13;14;15]) by (cbn; lia).
  cbn [In] in C. repeat destruct C as [<-|C]; try contradiction; (split; [lia|left; reflexivity]).
Qed.
Lemma numeral_snoc : forall base s n v c d, numeral base s n v -> digit base c d -> 0 <= n -> numeral base (s ++ String c "") (n + 1) (v * base + d).
Proof.
  intros base s n v c d H D. induction H as [|c0 d0 s n v D0 H IH]; intros N.
  - cbn [append]. replace (0 * base + d) with (d * base ^ 0 + 0) by (rewrite Z.pow_0_r; lia). apply nu_cons; [exact D|constructor].
  - assert (0 <= n) by (clear -H; induction H; lia). cbn [append]. replace ((d0 * base ^ n + v) * base + d) with (d0 * base ^ (n + 1) + (v * base + d)) by (rewrite Z.pow_add_r, Z.pow_1_r by lia; ring). apply nu_cons; [exact D0|]. apply IH. assumption.
Qed.
Lemma hex_numeral : forall n v, 0 <= v < 16 ^ Z.of_nat n -> numeral 16 (hex_fixed n v) (Z.of_nat n) v.
Proof.
  induction n as [|n IH]; intros v H; [cbn in *; replace v with 0 by lia; constructor|]. cbn [hex_fixed].
  rewrite Nat2Z.inj_succ, Z.pow_succ_r in H by lia. rewrite Nat2Z.inj_succ. unfold Z.succ.
  replace v with (v / 16 * 16 + v mod 16) at 3 by (rewrite Z.mul_comm; symmetry; apply Z.div_mod; lia).
  apply numeral_snoc; [|apply hex_digit_ok; apply Z.mod_pos_bound; lia|lia]. apply IH. split; [apply Z.div_pos; lia|apply Z.div_lt_upper_bound; lia].
Qed.

(** ** Lexing. *)
Definition ends_word (s : string) : Prop := hd_sat is_ident_char s = false.
Lemma ends_hex : forall s, ends_word s -> ends_numeral 16 s.
Proof.
  intros [|c s] H c' r d E D; [discriminate E|]. injection E as <- <-. unfold ends_word in H. cbn in H. apply digit_iff in D; [|right; right; reflexivity]. destruct D as [X _]. change (digit_test 16 c) with (is_hex_digit c) in X.
  destruct c as [[] [] [] [] [] [] [] []]; cbn in H, X; congruence.
Qed.
Lemma lex_word : forall c w r ts, is_ident_first c = true -> str_all is_ident_char w = true -> ends_word r -> tokenize r = Ok ts ->
  tokenize (String c w ++ r) = Ok (word_token (String c w) :: ts).
Proof.
  intros c w r ts F A E T. cbn [append]. rewrite (tokenize_next c (w ++ r) (word_token (String c w)) r); [rewrite T; reflexivity| | |].
  - destruct c as [[] [] [] [] [] [] [] []]; try discriminate F; reflexivity.
  - intros ->. discriminate F.
  - assert (X : is_single_punct c = false /\ Ascii.eqb c "$" = false /\ Ascii.eqb c "%" = false /\ is_decimal_digit c = false /\ Ascii.eqb c "." = false)
      by (destruct c as [[] [] [] [] [] [] [] []]; try discriminate F; repeat split).
    destruct X as (X1 & X2 & X3 & X4 & X5).
    transitivity (if is_ident_first c then let (w0, rest) := span is_ident_char (w ++ r) in Ok (word_token (String c w0), rest) else Err E_token).
    + destruct c as [[] [] [] [] [] [] [] []]; try discriminate F; reflexivity.
    + rewrite F, (span_exact is_ident_char w r A E). reflexivity.
Qed.
Lemma lex_punct : forall c r, is_single_punct c = true -> ~ In c ["+"; "-"; ":"]%char -> tokenize (String c r) = tok_cons (punct c) (tokenize r).
Proof.
  intros c r P N. apply tokenize_next; [destruct c as [[] [] [] [] [] [] [] []]; try discriminate P; reflexivity|intros ->; discriminate P|].
  cbn [In] in N. destruct c as [[] [] [] [] [] [] [] []]; try discriminate P; try reflexivity; exfalso; apply N; tauto.
Qed.
Lemma lex_space : forall r, tokenize (String " " r) = tokenize r.
Proof. intros r. apply (leading_space " " r). reflexivity. Qed.
Lemma lex_suffix : forall s r ts, s <> S_none -> ends_word r -> tokenize r = Ok ts -> tokenize (suffix_to_string s ++ r) = Ok (TSuffix s :: ts).
Proof.
  intros s r ts N E T. assert (X : forall c, is_ident_char c = true -> next_token (String "." (String c r)) = (let* t := dotted_token (String "." (String c "")) in Ok (t, r))).
  { intros c C. transitivity (let (w, rest) := span is_ident_char (String c "" ++ r) in let* t := dotted_token (String "." w) in Ok (t, rest)); [reflexivity|].
    rewrite (span_exact is_ident_char (String c "") r); [reflexivity|cbn; rewrite C; reflexivity|exact E]. }
  destruct s; [contradiction| |]; cbn [suffix_to_string append].
  - rewrite (tokenize_next _ _ (TSuffix S_b) r); [rewrite T; reflexivity|reflexivity|discriminate|rewrite X by reflexivity; reflexivity].
  - rewrite (tokenize_next _ _ (TSuffix S_w) r); [rewrite T; reflexivity|reflexivity|discriminate|rewrite X by reflexivity; reflexivity].
Qed.

(** ** Operands. *)
(** The text [s] is read as the tokens [p], whatever ends the word. *)
Definition lexes (s : string) (p : list token) : Prop := forall r ts, ends_word r -> tokenize r = Ok ts -> tokenize (s ++ r) = Ok (p ++ ts)%list.
Lemma lex_lit : forall v t, t = T_byte \/ t = T_word \/ t = T_long -> cast_to t v = v -> lexes (lit_to_string v t) [TLit v t].
Proof.
  intros v t T C r ts E R.
  assert (X : forall n, (0 < n <= 6)%nat -> 0 <= v < 16 ^ Z.of_nat n -> sized_type 2 (Z.of_nat n) t -> tokenize ((String "$" (hex_fixed n v)) ++ r) = Ok ([TLit v t] ++ ts)%list).
  { intros n N V SZ. destruct (literals r ts R) as (L & _). destruct (L (hex_fixed n v) (Z.of_nat n) v) as (t' & SZ' & X & _).
    - apply hex_numeral. exact V.
    - lia.
    - assert (16 ^ Z.of_nat n <= 16 ^ 6) by (apply Z.pow_le_mono_r; lia). unfold int_max. change (16 ^ 6) with 16777216 in *. lia.
    - apply ends_hex. exact E.
    - assert (t' = t) by (unfold sized_type in *; lia || (destruct SZ as [[? ->]|[[? ->]|[? ->]]], SZ' as [[? ->]|[[? ->]|[? ->]]]; try reflexivity; lia)). subst t'. exact X. }
  unfold lit_to_string. rewrite C.
  destruct T as [->|[->| ->]]; [apply (X 2%nat)|apply (X 4%nat)|apply (X 6%nat)]; try lia; try (unfold sized_type; lia);
    try (left; split; [lia|reflexivity]); try (right; left; split; [lia|reflexivity]); try (right; right; split; [lia|reflexivity]).
  - change (16 ^ Z.of_nat 2) with 256. rewrite <- C. cbn [cast_to]. change 0xff with (Z.ones 8). rewrite Z.land_ones by lia. apply Z.mod_pos_bound. lia.
  - change (16 ^ Z.of_nat 4) with 65536. rewrite <- C. cbn [cast_to]. change 0xffff with (Z.ones 16). rewrite Z.land_ones by lia. apply Z.mod_pos_bound. lia.
  - change (16 ^ Z.of_nat 6) with 16777216. rewrite <- C. cbn [cast_to]. change 0xffffff with (Z.ones 24). rewrite Z.land_ones by lia. apply Z.mod_pos_bound. lia.
Qed.

(** Words that are names. *)
Definition identifier (n : string) : Prop := exists c w, n = String c w /\ is_ident_first c = true /\ str_all is_ident_char w = true /\ word_token n = TIdent n.
Lemma lex_ident : forall n, identifier n -> lexes n [TIdent n].
Proof. intros n (c & w & -> & F & A & W) r ts E T. rewrite (lex_word c w r ts F A E T), W. reflexivity. Qed.
Lemma lex_at : forall n, identifier n -> lexes (String "@" n) [punct "@"; TIdent n].
Proof. intros n H r ts E T. cbn [append]. rewrite lex_punct; [|reflexivity|cbn; intuition discriminate]. rewrite (lex_ident n H r ts E T). reflexivity. Qed.
Lemma lex_reg : forall c r ts, In c ["A"; "S"; "X"; "Y"]%char -> ends_word r -> tokenize r = Ok ts -> tokenize (String c r) = Ok (punct c :: ts).
Proof.
  intros c r ts I E T. pose proof (lex_word c "" r ts) as L. cbn [append] in L. rewrite L; [|cbn [In] in I; repeat destruct I as [<-|I]; try contradiction; reflexivity|reflexivity|exact E|exact T].
  cbn [In] in I; repeat destruct I as [<-|I]; try contradiction; reflexivity.
Qed.

(** ** The operand part. *)
Definition mode_tokens (a : amode) (p q : list token) : list token :=
  match a with
  | A_imp | A_acc => []
  | A_imm_b | A_imm_w | A_imm_fm | A_imm_fx => punct "#" :: p
  | A_dir_b | A_dir_w | A_dir_l | A_rel8 | A_rel16 => p
  | A_dir_bx | A_dir_wx | A_dir_lx => p ++ [punct ","; punct "X"]
  | A_dir_by | A_dir_wy => p ++ [punct ","; punct "Y"]
  | A_ind_b | A_ind_w => punct "(" :: p ++ [punct ")"]
  | A_ind_bx | A_ind_wx => punct "(" :: p ++ [punct ","; punct "X"; punct ")"]
  | A_ind_by => punct "(" :: p ++ [punct ")"; punct ","; punct "Y"]
  | A_lng_b | A_lng_w => punct "[" :: p ++ [punct "]"]
  | A_lng_by => punct "[" :: p ++ [punct "]"; punct ","; punct "Y"]
  | A_stk => p ++ [punct ","; punct "S"]
  | A_stk_y => punct "(" :: p ++ [punct ","; punct "S"; punct ")"; punct ","; punct "Y"]
  | A_mov => punct "#" :: p ++ [punct ","; punct "#"] ++ q
  end%list.
Definition uses1 (a : amode) : bool := match a with A_imp | A_acc => false | _ => true end.
Definition uses2 (a : amode) : bool := match a with A_mov => true | _ => false end.
Ltac lp := rewrite lex_punct; [|reflexivity|cbn; intuition discriminate].
Ltac lw L T := let H := fresh in pose proof (fun E => L _ _ E T) as H; specialize (H eq_refl); rewrite H; reflexivity.
Lemma args_lex : forall a x y p q r ts, (uses1 a = true -> lexes (expr_opt_to_string x) p) -> (uses2 a = true -> lexes (expr_opt_to_string y) q) ->
  ends_word r -> tokenize r = Ok ts -> tokenize (args_to_string a x y ++ r) = Ok (mode_tokens a p q ++ ts)%list.
Proof.
  intros a x y p q r ts L1 L2 E T. unfold args_to_string. set (s1 := expr_opt_to_string x) in *. set (s2 := expr_opt_to_string y) in *.
  assert (TR : forall c, In c ["A"; "S"; "X"; "Y"]%char -> tokenize (", " ++ String c r) = Ok (punct "," :: punct c :: ts)).
  { intros c I. cbn [append]. lp. rewrite lex_space, (lex_reg c r ts I E T). reflexivity. }
  assert (TC : tokenize (")" ++ r) = Ok (punct ")" :: ts)) by (cbn [append]; lp; rewrite T; reflexivity).
  assert (TB : tokenize ("]" ++ r) = Ok (punct "]" :: ts)) by (cbn [append]; lp; rewrite T; reflexivity).
  assert (TX : tokenize (", X)" ++ r) = Ok (punct "," :: punct "X" :: punct ")" :: ts)).
  { cbn [append]. lp. rewrite lex_space, (lex_reg "X" _ (punct ")" :: ts)); [reflexivity|cbn; tauto|reflexivity|exact TC]. }
  assert (TCY : tokenize ("), Y" ++ r) = Ok (punct ")" :: punct "," :: punct "Y" :: ts)).
  { pose proof (TR "Y"%char ltac:(cbn; tauto)) as X. cbn [append] in X |- *. lp. rewrite X. reflexivity. }
  assert (TBY : tokenize ("], Y" ++ r) = Ok (punct "]" :: punct "," :: punct "Y" :: ts)).
  { pose proof (TR "Y"%char ltac:(cbn; tauto)) as X. cbn [append] in X |- *. lp. rewrite X. reflexivity. }
  assert (TSY : tokenize (", S), Y" ++ r) = Ok (punct "," :: punct "S" :: punct ")" :: punct "," :: punct "Y" :: ts)).
  { cbn [append]. lp. rewrite lex_space, (lex_reg "S" _ (punct ")" :: punct "," :: punct "Y" :: ts)); [reflexivity|cbn; tauto|reflexivity|exact TCY]. }
  assert (TRX := TR "X"%char ltac:(cbn; tauto)). assert (TRY := TR "Y"%char ltac:(cbn; tauto)). assert (TRS := TR "S"%char ltac:(cbn; tauto)).
  destruct a; cbn [mode_tokens uses1 uses2 append] in *; try specialize (L1 eq_refl); try specialize (L2 eq_refl); rewrite ?sapp_assoc; cbn [append]; try exact T;
    rewrite lex_space; try lp; cbn [app]; rewrite <- ?app_assoc; cbn [app].
  all: try (rewrite (L1 r ts E T); reflexivity).
  all: try lw L1 TRX.
  all: try lw L1 TRY.
  all: try lw L1 TRS.
  all: try lw L1 TC.
  all: try lw L1 TB.
  all: try lw L1 TX.
  all: try lw L1 TCY.
  all: try lw L1 TBY.
  all: try lw L1 TSY.
  assert (T2 : tokenize (", #" ++ s2 ++ r) = Ok (punct "," :: punct "#" :: q ++ ts)%list) by (cbn [append]; lp; rewrite lex_space; lp; rewrite (L2 r ts E T); reflexivity).
  cbn [append] in T2. lw L1 T2.
Qed.

(** ** The parser on printed instructions. *)
(** Operands that are single atoms. *)
Definition operand_tokens (p : list token) (e : expr) : Prop :=
  p = written 0 e /\
  match e with ELit v t => cast_to t v = v | EId id t => t = T_word \/ t = T_long | EUn Op_neg (ELit v t) => cast_to t v = v | _ => False end.
Lemma operand_parse : forall p e t rest, operand_tokens p e -> ~ continues t -> parse_expr (p ++ t :: rest)%list = Ok (e, t :: rest).
Proof. intros p e t rest [-> H] C. apply expression_roundtrip; [|exact C]. destruct e as [| |op e| |]; try contradiction; try exact H; destruct op; try contradiction; destruct e; try contradiction; exact H. Qed.
Definition syntax (a : amode) : samode := hd SA_imp (written_as a).
Definition args_of (a : amode) (e1 e2 : option expr) : option expr * option expr :=
  (if uses1 a then e1 else None, if uses2 a then e2 else None).
Definition ender (t : token) : Prop := In t [TEol; TPunct P_yields; TPunct P_noreturn].
Lemma ender_stops : forall t, ender t -> ~ continues t.
Proof. intros t E C. unfold ender, continues in *. cbn [In] in *. repeat destruct E as [<-|E]; try contradiction; repeat destruct C as [C|C]; try discriminate C; contradiction. Qed.
Lemma punct_stops : forall c, In c [","; ")"; "]"]%char -> ~ continues (punct c).
Proof. intros c E C. unfold continues in *. cbn [In] in *. repeat destruct E as [<-|E]; try contradiction; repeat destruct C as [C|C]; try discriminate C; contradiction. Qed.
Definition suffix_tokens (s : suffix) : list token := match s with S_none => [] | _ => [TSuffix s] end.
Lemma core_suffix : forall m s ts, match ts with [] | TSuffix _ :: _ => False | _ => True end ->
  parse_instruction_core (TMnem m :: suffix_tokens s ++ ts)%list = parse_instruction_core (TMnem m :: TSuffix s :: ts).
Proof. intros m s ts H. destruct s; try reflexivity. destruct ts as [|[] ts]; try contradiction; reflexivity. Qed.
Local Opaque parse_expr create_instruction.
Lemma core_parse : forall m s a p q e1 e2 t rest, (uses1 a = true -> operand_tokens p e1) -> (uses2 a = true -> operand_tokens q e2) -> ender t ->
  parse_instruction_core (TMnem m :: suffix_tokens s ++ mode_tokens a p q ++ t :: rest)%list =
  let* i := create_instruction m s (syntax a) (fst (args_of a (Some e1) (Some e2))) (snd (args_of a (Some e1) (Some e2))) in Ok (i, t :: rest).
Proof.
  intros m s a p q e1 e2 t rest O1 O2 E. pose proof (ender_stops t E) as ES.
  assert (X1 : forall t rest, uses1 a = true -> ~ continues t -> parse_expr (p ++ t :: rest)%list = Ok (e1, t :: rest)) by (intros; apply operand_parse; auto).
  assert (X2 : forall t rest, uses2 a = true -> ~ continues t -> parse_expr (q ++ t :: rest)%list = Ok (e2, t :: rest)) by (intros; apply operand_parse; auto).
  assert (SH : uses1 a = true -> exists t1 p1, p = t1 :: p1 /\ ((exists v ty, t1 = TLit v ty) \/ (exists n, t1 = TIdent n) \/ t1 = punct "@" \/ t1 = TPunct P_scope \/ t1 = punct "-")).
  { intros U. destruct (O1 U) as [-> H]. destruct e1 as [v ty|[md n] ty|op e1| |]; try contradiction; [eexists; eexists; split; [reflexivity|]; eauto| |].
    2: { destruct op; try contradiction; destruct e1; try contradiction; eexists; eexists; split; [reflexivity|]; auto. }
    cbn. destruct (ntype_eqb ty T_long); [eexists; eexists; split; [reflexivity|]; auto|]. destruct md as [[|c0 w0]|]; eexists; eexists; (split; [reflexivity|]); eauto. }
  clear O1 O2.
  assert (CM := punct_stops "," ltac:(cbn; tauto)). assert (CP := punct_stops ")" ltac:(cbn; tauto)). assert (CB := punct_stops "]" ltac:(cbn; tauto)).
  rewrite core_suffix.
  2:{ unfold ender in E. cbn [In] in E. repeat destruct E as [<-|E]; try contradiction;
      (destruct a; cbn [mode_tokens app uses1] in *; try exact Logic.I; specialize (SH eq_refl); destruct SH as (t1 & p1 & -> & [(v & ty & ->)|[(n & ->)|[-> |[-> | ->]]]]); exact Logic.I). }
  destruct (uses1 a) eqn:U1.
  - specialize (SH eq_refl).
    pose proof (fun t rest => X1 t rest eq_refl) as Y1. clear X1.
    assert (Z2 : forall rest, uses2 a = true -> parse_expr (q ++ t :: rest)%list = Ok (e2, t :: rest)) by (intros; apply X2; assumption). clear X2.
    assert (YM : forall rest, parse_expr (p ++ TPunct 44 :: rest)%list = Ok (e1, TPunct 44 :: rest)) by (intros; apply Y1; exact CM).
    assert (YP : forall rest, parse_expr (p ++ TPunct 41 :: rest)%list = Ok (e1, TPunct 41 :: rest)) by (intros; apply Y1; exact CP).
    assert (YB : forall rest, parse_expr (p ++ TPunct 93 :: rest)%list = Ok (e1, TPunct 93 :: rest)) by (intros; apply Y1; exact CB).
    assert (YE : forall rest, parse_expr (p ++ t :: rest)%list = Ok (e1, t :: rest)) by (intros; apply Y1; exact ES). clear Y1 CM CP CB ES.
    unfold ender in E. cbn [In] in E.
    destruct SH as (t1 & p1 & -> & [(v & ty & ->)|[(n & ->)|[-> |[-> | ->]]]]); cbn [app] in YM, YP, YB, YE; destruct a; try discriminate U1; cbn [mode_tokens app]; rewrite <- ?app_assoc; cbn [app];
      repeat destruct E as [<-|E]; try contradiction; cbn; unfold p_bare; rewrite ?YM, ?YP, ?YB, ?YE; cbn; rewrite ?YE, ?Z2 by reflexivity; reflexivity.
  - destruct a; try discriminate U1; unfold ender in E; cbn [In] in E; repeat destruct E as [<-|E]; try contradiction; destruct s; reflexivity.
Qed.

(** ** Whole lines. *)
(** The operand [x] is printed in such a way that it is read as [e]. *)
Definition read_back (x : option expr) (e : expr) : Prop := exists p, lexes (expr_opt_to_string x) p /\ operand_tokens p e.
Lemma back_lit : forall v t, t = T_byte \/ t = T_word \/ t = T_long -> cast_to t v = v -> read_back (Some (ELit v t)) (ELit v t).
Proof. intros v t T C. exists [TLit v t]. split; [apply lex_lit; assumption|]. split; [reflexivity|exact C]. Qed.
Lemma back_name : forall n t, t = T_word \/ t = T_long -> identifier n -> read_back (Some (EId (FullId None n) t)) (EId (FullId None n) t).
Proof. intros n t T I. destruct T as [->| ->]; eexists; (split; [|split; [reflexivity|auto]]); cbn; [apply lex_ident|apply lex_at]; exact I. Qed.
Lemma back_label : forall n e, identifier n -> read_back (Some (ELabel n e)) (EId (FullId None n) T_word).
Proof. intros n e I. exists [TIdent n]. split; [apply lex_ident; exact I|]. split; [reflexivity|auto]. Qed.

Definition rc_tokens (r : retconv) : list token :=
  match r with RC_default => [] | RC_noreturn => [TPunct P_noreturn] | RC_yields f => [TPunct P_yields; TIdent (flags_to_name f)] end.
Definition rc_ok (r : retconv) : Prop := match r with RC_yields f => bit_known (fl_c f) = false | _ => True end.
Definition rc_read (r : retconv) : retconv :=
  match r with RC_yields f => match flags_from_name (flags_to_name f) with Some g => RC_yields g | None => RC_default end | r => r end.
Lemma flags_name_read : forall f, exists g, flags_from_name (flags_to_name f) = Some g.
Proof. intros [e m x c]. destruct e, m, x, c; eexists; reflexivity. Qed.
Lemma flags_name_ident : forall f, identifier (flags_to_name f).
Proof. intros [e m x c]. destruct e, m, x, c; eexists; eexists; (split; [reflexivity|]); (split; [reflexivity|]); split; reflexivity. Qed.
Lemma ends_eol : tokenize "" = Ok [TEol].
Proof. reflexivity. Qed.
Lemma rc_lex : forall r, rc_ok r -> tokenize (rc_to_suffix r) = Ok (rc_tokens r ++ [TEol])%list /\ ends_word (rc_to_suffix r).
Proof.
  intros [|f|] H; [split; reflexivity| |split; reflexivity]. cbn [rc_ok] in H. split; [|reflexivity].
  assert (F : flags_to_string f = flags_to_name f) by (unfold flags_to_string; destruct (fl_c f); try discriminate H; cbn; apply sapp_nil_r).
  cbn [rc_to_suffix]. rewrite F.
  assert (A : tokenize (" " ++ flags_to_name f) = Ok [TIdent (flags_to_name f); TEol]).
  { cbn [append]. rewrite lex_space. pose proof (lex_ident _ (flags_name_ident f) "" [TEol] eq_refl ends_eol) as L. rewrite sapp_nil_r in L. exact L. }
  change (" yields " ++ flags_to_name f) with (String " " ("yields" ++ (" " ++ flags_to_name f))). rewrite lex_space.
  rewrite (lex_word "y" "ields" (" " ++ flags_to_name f) _ eq_refl eq_refl eq_refl A). reflexivity.
Qed.
Lemma mnem_word : forall m, exists c w, mnem_to_string m = String c w /\ is_ident_first c = true /\ str_all is_ident_char w = true /\ word_token (mnem_to_string m) = TMnem m.
Proof. intros m. destruct m; eexists; eexists; (split; [reflexivity|]); (split; [reflexivity|]); split; reflexivity. Qed.
Lemma instr_lex : forall i p q, (uses1 (i_mode i) = true -> lexes (expr_opt_to_string (i_arg1 i)) p) -> (uses2 (i_mode i) = true -> lexes (expr_opt_to_string (i_arg2 i)) q) ->
  rc_ok (i_ret i) -> tokenize (instr_to_string i) = Ok (TMnem (i_mnem i) :: suffix_tokens (i_suffix i) ++ mode_tokens (i_mode i) p q ++ rc_tokens (i_ret i) ++ [TEol])%list.
Proof.
  intros i p q L1 L2 R. unfold instr_to_string. destruct (rc_lex _ R) as [TR ER]. pose proof (args_lex _ _ _ _ _ _ _ L1 L2 ER TR) as TA.
  assert (EA : ends_word (args_to_string (i_mode i) (i_arg1 i) (i_arg2 i) ++ rc_to_suffix (i_ret i))) by (destruct (i_mode i); try exact ER; reflexivity).
  set (args := args_to_string (i_mode i) (i_arg1 i) (i_arg2 i) ++ rc_to_suffix (i_ret i)) in *. clearbody args.
  assert (TS : tokenize (suffix_to_string (i_suffix i) ++ args) = Ok (suffix_tokens (i_suffix i) ++ mode_tokens (i_mode i) p q ++ rc_tokens (i_ret i) ++ [TEol])%list).
  { destruct (i_suffix i) eqn:SX; [exact TA| |]; (rewrite lex_suffix with (ts := (mode_tokens (i_mode i) p q ++ rc_tokens (i_ret i) ++ [TEol])%list); [reflexivity|discriminate|exact EA|exact TA]). }
  assert (ES : ends_word (suffix_to_string (i_suffix i) ++ args)) by (destruct (i_suffix i); [exact EA|reflexivity|reflexivity]).
  destruct (mnem_word (i_mnem i)) as (c & w & E & F & A & W). rewrite <- W, E. apply lex_word; assumption.
Qed.
Local Opaque parse_instruction_core.
Lemma instr_read : forall i e1 e2 a', (uses1 (i_mode i) = true -> read_back (i_arg1 i) e1) -> (uses2 (i_mode i) = true -> read_back (i_arg2 i) e2) ->
  rc_ok (i_ret i) -> (i_ret i <> RC_default -> i_mnem i = M_jsl \/ i_mnem i = M_jsr) -> (i_suffix i <> S_none -> flag_controlling_size (i_mnem i) <> NotVariable) ->
  let e := args_of (i_mode i) (Some e1) (Some e2) in deduce_mode (i_mnem i) (syntax (i_mode i)) (fst e) (snd e) = Ok a' ->
  exists ts, tokenize (instr_to_string i) = Ok ts /\ parse ts = Ok [PStmt (SInstr (Instr (i_mnem i) (i_suffix i) a' (fst e) (snd e) (rc_read (i_ret i))))].
Proof.
  intros i e1 e2 a' B1 B2 R RM SX e D.
  assert (X1 : exists p, (uses1 (i_mode i) = true -> lexes (expr_opt_to_string (i_arg1 i)) p) /\ (uses1 (i_mode i) = true -> operand_tokens p e1)).
  { destruct (uses1 (i_mode i)); [|exists []; split; discriminate]. destruct (B1 eq_refl) as (p & L & O). exists p. auto. }
  assert (X2 : exists q, (uses2 (i_mode i) = true -> lexes (expr_opt_to_string (i_arg2 i)) q) /\ (uses2 (i_mode i) = true -> operand_tokens q e2)).
  { destruct (uses2 (i_mode i)); [|exists []; split; discriminate]. destruct (B2 eq_refl) as (p & L & O). exists p. auto. }
  destruct X1 as (p & L1 & O1). destruct X2 as (q & L2 & O2). eexists. split; [apply (instr_lex i p q L1 L2 R)|].
  assert (CR : create_instruction (i_mnem i) (i_suffix i) (syntax (i_mode i)) (fst e) (snd e) = Ok (Instr (i_mnem i) (i_suffix i) a' (fst e) (snd e) RC_default)).
  { Local Transparent create_instruction. unfold create_instruction. rewrite D. cbn [bind]. destruct (i_suffix i); cbn [suffix_eqb negb andb]; try reflexivity;
      destruct (flag_controlling_size (i_mnem i)) eqn:FS; try reflexivity; destruct SX; auto; discriminate. Local Opaque create_instruction. }
  assert (RT : exists t rest, (rc_tokens (i_ret i) ++ [TEol])%list = t :: rest /\ ender t /\ parse_return_convention (t :: rest) = Ok (rc_read (i_ret i), [TEol])).
  { destruct (i_ret i) as [|f|]; [exists TEol, []|exists (TPunct P_yields), [TIdent (flags_to_name f); TEol]|exists (TPunct P_noreturn), [TEol]].
    - split; [reflexivity|]. split; [cbn; tauto|reflexivity].
    - split; [reflexivity|]. split; [cbn; tauto|]. unfold parse_return_convention. cbn [front bind is_punct tl p_mode]. destruct (flags_name_read f) as (g & G). cbn [rc_read]. rewrite G. reflexivity.
    - split; [reflexivity|]. split; [cbn; tauto|reflexivity]. }
  destruct RT as (t & rest & RT & ET & PR). rewrite RT.
  pose proof (core_parse (i_mnem i) (i_suffix i) (i_mode i) p q e1 e2 t rest O1 O2 ET) as CP. fold e in CP. rewrite CR in CP. cbn [bind] in CP.
  set (ts := (suffix_tokens (i_suffix i) ++ mode_tokens (i_mode i) p q ++ t :: rest)%list) in *. clearbody ts.
  assert (PI : parse_instruction (TMnem (i_mnem i) :: ts) = Ok (Instr (i_mnem i) (i_suffix i) a' (fst e) (snd e) (rc_read (i_ret i)), [TEol])).
  { unfold parse_instruction. rewrite CP. cbn [bind i_mnem i_suffix i_mode i_arg1 i_arg2]. rewrite PR. cbn [bind].
    destruct (i_ret i) as [|f|] eqn:RI; cbn [rc_read rc_is_default negb andb]; [reflexivity| |].
    - destruct (flags_name_read f) as (g & G). rewrite G. cbn [rc_is_default negb andb]. destruct RM as [M|M]; [discriminate|rewrite M; reflexivity|rewrite M; reflexivity].
    - destruct RM as [M|M]; [discriminate|rewrite M; reflexivity|rewrite M; reflexivity]. }
  Local Opaque parse_instruction. unfold parse. cbn [List.length parse_loop p_label front bind is_punct app tok_at_end is_eol is_char orb tok_dir tok_mnem]. rewrite PI. cbn. destruct ts; reflexivity.
Qed.

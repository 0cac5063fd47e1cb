(** Proofs: which printed statements read back. *)
From Verif Require Import Base ModelNumeric ModelExpr ModelMnemonic ModelAMode ModelOpcode ModelState ModelInstr ModelToken ModelStatement
  ModelParse ModelInteractive SpecArith SpecText SpecInstr SpecScope SpecSafe SpecShow BaseProofs NameProofs TokenProofs TextProofs ParseProofs ModeProofs PrintProofs ToolTextProofs ShowProofs.
Open Scope string_scope.
Open Scope list_scope.
Open Scope Z_scope.
Local Opaque deduce_mode flag_controlling_size.

(** ** Counting names and minus signs. *)
Definition wt (t : token) : Z :=
  match t with TIdent _ => 1 | TPunct p => if p =? code "-" then 1 else 0 | _ => 0 end.
Fixpoint ws (ts : list token) : Z := match ts with [] => 0 | t :: ts' => wt t + ws ts' end.
Lemma ws_app : forall a b, ws (a ++ b) = ws a + ws b.
Proof. induction a as [|t a IH]; intros b; [reflexivity|]. cbn [app ws]. rewrite IH. lia. Qed.
Fixpoint we (e : expr) : Z :=
  match e with
  | ELit _ _ => 0
  | EId id _ => match fi_module id with Some (String _ _) => 2 | _ => 1 end
  | EBin op l r => (match op with Op_minus => 1 | _ => 0 end) + we l + we r
  | EUn op a => (match op with Op_neg => 1 | _ => 0 end) + we a
  | ELabel _ _ => 0
  end.
Definition wo (e : option expr) : Z := match e with Some e => we e | None => 0 end.
(** What printing adds. *)
Fixpoint extra (e : expr) : Z :=
  match e with
  | ELit v t => if ntype_eqb t T_unknown && (v <? 0) then 1 else 0
  | EBin _ l r => 1 + extra l + extra r
  | EUn _ a => 1 + extra a
  | _ => 0
  end.
Lemma extra_pos : forall e, 0 <= extra e.
Proof. induction e; cbn; try lia. destruct (_ && _); lia. Qed.
Lemma extra_plain : forall e, expr_ok e -> extra e = 0 -> plain_operand e.
Proof.
  intros [v t|id t|op a b|op a|n x] O E; cbn in *; try contradiction; try exact Logic.I.
  - intros ->. cbn in E. destruct (Z.ltb_spec v 0); [discriminate E|assumption].
  - pose proof (extra_pos a). pose proof (extra_pos b). lia.
  - pose proof (extra_pos a). lia.
Qed.
Definition wrc (r : retconv) : Z := match r with RC_yields _ => 1 | _ => 0 end.

(** ** Printed operands. *)
Lemma lex_sign : forall c r, In c ["+"; "-"; "*"; "/"; "<"; ">"; "^"]%char -> tokenize (String c (String "(" r)) = tok_cons (punct c) (tokenize (String "(" r)).
Proof.
  intros c r I. cbn [In] in I. repeat destruct I as [<-|I]; try contradiction;
  (erewrite tokenize_next; [reflexivity|reflexivity|discriminate|rewrite next_token_eq; reflexivity]).
Qed.
Lemma lex_minus : forall r, hd_is "-" r = false -> tokenize (String "-" r) = tok_cons (punct "-") (tokenize r).
Proof.
  intros r H. rewrite (tokenize_next "-" r (punct "-") r); [reflexivity|reflexivity|discriminate|].
  rewrite next_token_eq. unfold next_alt. rewrite H. reflexivity.
Qed.
Lemma dec_head : forall f v, (0 < f)%nat -> 0 <= v -> exists c s, dec_digits f v = String c s /\ c <> "-"%char.
Proof.
  induction f as [|f IH]; intros v F V; [lia|]. cbn [dec_digits].
  assert (D : forall d, 0 <= d < 10 -> hex_digit d <> "-"%char).
  { intros d H. assert (C : In d [0;1;2;3;4;5;6;7;8;9]) by (cbn; lia). cbn [In] in C. repeat destruct C as [<-|C]; try contradiction; discriminate. }
  destruct (Z.ltb_spec v 10); [exists (hex_digit v), ""; split; [reflexivity|apply D; lia]|].
  destruct f as [|f]; [cbn; eexists; eexists; split; [reflexivity|apply D, Z.mod_pos_bound; lia]|].
  destruct (IH (v / 10)) as (c & s & -> & N); [lia|apply Z.div_pos; lia|]. eexists. eexists. split; [reflexivity|exact N].
Qed.
Lemma lex_most : lexes "2147483648" [TLit int_min T_unknown].
Proof.
  intros r ts E T. change ("2147483648" ++ r)%string with (String "2" ("147483648" ++ r)).
  rewrite (tokenize_next "2" ("147483648" ++ r) (TLit int_min T_unknown) r); [rewrite T; reflexivity|reflexivity|discriminate|].
  rewrite next_token_eq. change (next_alt (String "2" ("147483648" ++ r))) with (Ok (take_lit 10 is_decimal_digit (fun _ => T_unknown) ("2147483648" ++ r)%string)).
  unfold take_lit. rewrite span_exact; [vm_compute; reflexivity|reflexivity|].
  destruct r as [|c r]; [reflexivity|]. clear T ts. unfold ends_word in E. destruct c as [[] [] [] [] [] [] [] []]; cbn in *; congruence.
Qed.
Lemma lex_negative : forall v, int_min <= v < 0 -> exists w, lexes (lit_to_string v T_unknown) [punct "-"; TLit w T_unknown].
Proof.
  intros v V. unfold lit_to_string. cbn [cast_to]. unfold dec_string. destruct (Z.ltb_spec v 0); [|lia].
  assert (G : forall s w, hd_is "-" s = false -> s <> "" -> lexes s [TLit w T_unknown] -> lexes (String "-" s) [punct "-"; TLit w T_unknown]).
  { intros s w H1 H2 L r ts E T. cbn [String.append]. rewrite lex_minus; [rewrite (L r ts E T); reflexivity|]. destruct s; [congruence|exact H1]. }
  destruct (dec_head 20 (- v) ltac:(lia) ltac:(lia)) as (c & s & E & N).
  assert (H1 : hd_is "-" (dec_digits 20 (- v)) = false) by (rewrite E; cbn; destruct (Ascii.eqb_spec c "-"); [contradiction|reflexivity]).
  assert (H2 : dec_digits 20 (- v) <> "") by (rewrite E; discriminate).
  destruct (Z.eq_dec v int_min) as [->|NE].
  - exists int_min. apply G; [reflexivity|discriminate|]. exact lex_most.
  - exists (- v). apply G; [exact H1|exact H2|]. pose proof (lex_dec (- v)) as L. unfold lit_to_string, dec_string in L. cbn [cast_to] in L.
    destruct (Z.ltb_spec (- v) 0); [lia|]. apply L. unfold int_min, int_max in *. lia.
Qed.
Definition shows (e : expr) (p : list token) : Prop :=
  lexes (expr_to_string e) p /\ ws p = we e + extra e /\ forallb plain p = true /\ match p with [] | TSuffix _ :: _ => False | t :: _ => t <> punct "(" end.
Lemma op_word : forall r ts, ends_word r -> tokenize r = Ok ts -> tokenize ("op" ++ r)%string = Ok (TIdent "op" :: ts).
Proof. intros r ts E T. apply (lex_word "o" "p" r ts); [reflexivity|reflexivity|exact E|exact T]. Qed.
Lemma op_lex : forall c s r ts, In c ["+"; "-"; "*"; "/"; "<"; ">"; "^"]%char -> tokenize (s ++ r)%string = Ok ts ->
  tokenize ("op" ++ String c "" ++ "(" ++ s ++ r)%string = Ok (TIdent "op" :: punct c :: punct "(" :: ts).
Proof.
  intros c s r ts I T. apply op_word; [cbn [In] in I; repeat destruct I as [<-|I]; try contradiction; reflexivity|].
  cbn [String.append]. rewrite lex_sign by exact I. rewrite lex_punct; [|reflexivity|cbn; intuition discriminate]. rewrite T. reflexivity.
Qed.
Lemma un_char : forall op, exists c, unop_symbol op = String c "" /\ In c ["+"; "-"; "*"; "/"; "<"; ">"; "^"]%char /\ plain (punct c) = true /\ wt (punct c) = match op with Op_neg => 1 | _ => 0 end.
Proof. intros []; eexists; (split; [reflexivity|]); (split; [cbn; tauto|split; reflexivity]). Qed.
Lemma bin_char : forall op, exists c, binop_symbol op = String c "" /\ In c ["+"; "-"; "*"; "/"; "<"; ">"; "^"]%char /\ plain (punct c) = true /\ wt (punct c) = match op with Op_minus => 1 | _ => 0 end.
Proof. intros []; eexists; (split; [reflexivity|]); (split; [cbn; tauto|split; reflexivity]). Qed.
Lemma closing : forall r ts, tokenize r = Ok ts -> tokenize (")" ++ r)%string = Ok (punct ")" :: ts).
Proof. intros r ts T. cbn [String.append]. rewrite lex_punct; [|reflexivity|cbn; intuition discriminate]. rewrite T. reflexivity. Qed.
Lemma all_shown : forall e, expr_ok e -> exists p, shows e p.
Proof.
  induction e as [v t|id t|op l IHl r IHr|op a IHa|n x]; intros O; try contradiction.
  - cbn [expr_ok] in O. destruct O as (T & C & M). destruct (Z.ltb_spec v 0) as [N|N].
    + assert (t = T_unknown) as ->.
      { destruct T as [->|[->|[->| ->]]]; [..|reflexivity]; exfalso; cbn in C; match type of C with Z.land v ?k = v => pose proof (Z.land_nonneg v k) as X end; rewrite C in X; lia. }
      destruct (lex_negative v) as (w & L); [specialize (M eq_refl); lia|]. exists [punct "-"; TLit w T_unknown]. split; [exact L|]. cbn. destruct (Z.ltb_spec v 0); [|lia]. repeat split. discriminate.
    + exists [TLit v t]. split; [|cbn; destruct (Z.ltb_spec v 0); [lia|]; rewrite andb_false_r; repeat split; discriminate].
      destruct T as [T|[T|[T|T]]]; try (apply lex_lit; auto; fail). subst t. apply lex_dec. specialize (M eq_refl). lia.
  - pose proof O as O'. destruct (back_plain (EId id t) O Logic.I) as (p & L & -> & TT). exists (written 0 (EId id t)). split; [exact L|].
    destruct id as [[[|c m]|] n]; destruct TT as [->| ->]; cbn; repeat split; discriminate.
  - destruct O as [OL OR]. destruct (IHl OL) as (p & L1 & W1 & P1 & H1). destruct (IHr OR) as (q & L2 & W2 & P2 & H2). destruct (bin_char op) as (c & S & I & PC & WC).
    exists (TIdent "op" :: punct c :: punct "(" :: p ++ punct "," :: q ++ [punct ")"]). split; [|split; [|split]].
    + intros s ts E T. cbn [expr_to_string]. rewrite S, !sapp_assoc. rewrite (op_lex c (expr_to_string l) _ (p ++ punct "," :: q ++ punct ")" :: ts)).
      * cbn [app]. rewrite <- !app_assoc. cbn [app]. rewrite <- app_assoc. reflexivity.
      * exact I.
      * apply L1; [reflexivity|]. change (", " ++ expr_to_string r ++ ")" ++ s)%string with (String "," (String " " (expr_to_string r ++ ")" ++ s))). rewrite lex_punct; [|reflexivity|cbn; intuition discriminate]. rewrite lex_space, (L2 (")" ++ s)%string (punct ")" :: ts)); [reflexivity|reflexivity|apply closing; exact T].
    + cbn [ws we extra]. rewrite WC, ws_app. cbn [ws]. rewrite ws_app, W1, W2. cbn. lia.
    + cbn [forallb]. rewrite PC, forallb_app. cbn [forallb]. rewrite forallb_app, P1, P2. reflexivity.
    + discriminate.
  - destruct (IHa O) as (p & L1 & W1 & P1 & H1). destruct (un_char op) as (c & S & I & PC & WC).
    exists (TIdent "op" :: punct c :: punct "(" :: p ++ [punct ")"]). split; [|split; [|split]].
    + intros s ts E T. cbn [expr_to_string]. rewrite S, !sapp_assoc. rewrite (op_lex c (expr_to_string a) _ (p ++ punct ")" :: ts)).
      * cbn [app]. rewrite <- !app_assoc. reflexivity.
      * exact I.
      * apply L1; [reflexivity|]. apply closing. exact T.
    + cbn [ws we extra]. rewrite WC, ws_app, W1. cbn. lia.
    + cbn [forallb]. rewrite PC, forallb_app, P1. reflexivity.
    + discriminate.
Qed.

(** ** Reading loses nothing. *)
Lemma grammar_ws : forall l ts e, grammar l ts e -> Forall tok_ok ts -> ws ts = we e.
Proof.
  induction 1; intros F; try (cbn [ws we wt]; lia); auto.
  - pose proof (Forall_inv F) as (c & w & -> & _). reflexivity.
  - apply Forall_inv_tail in F. cbn [ws]. rewrite IHgrammar by exact F. reflexivity.
  - apply Forall_inv_tail, Forall_app in F as [F _]. cbn [ws]. rewrite ws_app, IHgrammar by exact F. cbn. lia.
  - apply Forall_inv_tail in F. cbn [ws we]. rewrite IHgrammar by exact F. destruct op; reflexivity.
  - apply Forall_app in F as [F1 F2]. apply Forall_inv_tail in F2. rewrite ws_app. cbn [ws we]. rewrite IHgrammar1, IHgrammar2 by assumption. destruct op; cbn; lia.
  - apply Forall_app in F as [F1 F2]. apply Forall_inv_tail in F2. rewrite ws_app. cbn [ws we]. rewrite IHgrammar1, IHgrammar2 by assumption. destruct op; cbn; lia.
Qed.
Lemma expr_ws : forall ts e r, parse_expr ts = Ok (e, r) -> Forall tok_ok ts -> ws ts = we e + ws r /\ Forall tok_ok r.
Proof.
  intros ts e r P F. apply expression_rest in P as [(p & -> & G) _]. apply Forall_app in F as [F1 F2]. split; [|exact F2].
  rewrite ws_app, (grammar_ws _ _ _ G F1). reflexivity.
Qed.
Lemma char_ws : forall c t, is_char c t = true -> c <> "-"%char -> wt t = 0.
Proof.
  intros c t H N. unfold is_char, is_punct in H. destruct t; try discriminate H. apply Z.eqb_eq in H. subst p. cbn.
  destruct (Z.eqb_spec (code c) 45) as [E|E]; [|reflexivity]. exfalso. apply N. unfold code in E. change 45 with (Z.of_N (N_of_ascii "-")) in E.
  apply N2Z.inj in E. apply (f_equal ascii_of_N) in E. rewrite !ascii_N_embedding in E. exact E.
Qed.
Lemma punct_ws : forall p t, is_punct p t = true -> 256 < p -> wt t = 0.
Proof.
  intros p t H N. unfold is_punct in H. destruct t; try discriminate H. apply Z.eqb_eq in H. subst. cbn. destruct (Z.eqb_spec p 45); [lia|reflexivity].
Qed.
Lemma tl_ws : forall c ts t, front ts = Ok t -> is_char c t = true -> c <> "-"%char -> ws (tl ts) = ws ts /\ hd_error ts = Some t.
Proof. intros c [|t0 ts] t H C N; [discriminate H|]. injection H as ->. cbn [tl ws hd_error]. rewrite (char_ws c t C N). split; [lia|reflexivity]. Qed.
Definition bare (i : instr) : Prop :=
  exists s, In s [SA_dir; SA_dir_x; SA_dir_y; SA_stk] /\ deduce_mode (i_mnem i) s (i_arg1 i) (i_arg2 i) = Ok (i_mode i).
Definition wi (i : instr) : Z := wo (i_arg1 i) + wo (i_arg2 i).
(** What a piece of the parser returns: [n] is conserved, or [L]. *)
Definition kept {A} (Q : A -> list token -> Prop) (r : res (A * list token)) : Prop :=
  match r with Ok (a, ts') => Q a ts' /\ Forall tok_ok ts' | _ => True end.
Lemma q_expr : forall A Q ts (k : expr * list token -> res (A * list token)), Forall tok_ok ts ->
  (forall e ts', ws ts = we e + ws ts' -> Forall tok_ok ts' -> kept Q (k (e, ts'))) -> kept Q (bind (parse_expr ts) k).
Proof.
  intros A Q ts k F H. destruct (parse_expr ts) as [[e r]|e|u|] eqn:E; try exact Logic.I.
  destruct (expr_ws _ _ _ E F). apply H; assumption.
Qed.
Lemma q_consume : forall A Q c ts (k : list token -> res (A * list token)), c <> "-"%char -> Forall tok_ok ts ->
  (forall ts', ws ts = ws ts' -> Forall tok_ok ts' -> kept Q (k ts')) -> kept Q (bind (consume c ts) k).
Proof.
  intros A Q c [|t ts] k N F H; [exact Logic.I|]. cbn [consume]. inversion F; subst. destruct (is_char c t) eqn:E; [|exact Logic.I].
  apply H; [cbn [ws]; rewrite (char_ws c t E N); lia|assumption].
Qed.
Lemma q_front : forall A Q ts (k : token -> res (A * list token)),
  (forall t, front ts = Ok t -> kept Q (k t)) -> kept Q (bind (front ts) k).
Proof. intros A Q [|t ts] k H; [exact Logic.I|]. apply H. reflexivity. Qed.
Lemma q_any : forall A B Q (r : res B) (k : B -> res (A * list token)),
  (forall b, kept Q (k b)) -> kept Q (bind r k).
Proof. intros A B Q [b|e|u|] k H; try exact Logic.I. apply H. Qed.
Lemma q_create : forall (Q : instr -> list token -> Prop) m s sam a b ts, Forall tok_ok ts ->
  (forall am, deduce_mode m sam a b = Ok am -> Q (Instr m s am a b RC_default) ts) ->
  kept Q (let* i := create_instruction m s sam a b in Ok (i, ts)).
Proof.
  intros Q m s sam a b ts F H. unfold create_instruction. destruct (deduce_mode m sam a b) eqn:D; try exact Logic.I. cbn [bind].
  destruct (_ && _) eqn:B; [exact Logic.I|]. cbn. split; [apply H; reflexivity|exact F].
Qed.
Ltac qstep :=
  match goal with
  | |- kept _ (bind (parse_expr _) _) => apply q_expr; [tk|]; intros
  | |- kept _ (bind (consume _ _) _) => apply q_consume; [discriminate|tk|]; intros
  | |- kept _ (bind (front _) _) => apply q_front; intros
  | |- kept _ (bind (create_instruction _ _ _ _ _) _) => apply q_create; [tk|intros]
  | |- kept _ (bind _ _) => apply q_any; intros
  | F : front ?ts = Ok ?t |- kept _ (if is_char ?c ?t then _ else _) =>
      let E := fresh "E" in let X := fresh "X" in let Y := fresh "Y" in destruct (is_char c t) eqn:E; [destruct (tl_ws c ts t F E ltac:(discriminate)) as [X Y]|]
  | |- kept _ (if ?b then _ else _) => destruct b
  | |- kept _ (Err _) => exact Logic.I
  end.
Lemma bare_ws : forall m sfx ts, Forall tok_ok ts -> kept (fun i ts' => ws ts = wi i + ws ts' /\ bare i) (p_bare m sfx ts).
Proof.
  intros m sfx ts F. unfold p_bare. cbv zeta. repeat qstep; unfold wi; cbn [i_arg1 i_arg2 wo]; (split; [lia|]);
  (eexists; split; [|eassumption]); cbn; tauto.
Qed.
Definition drop_suffix (ts : list token) : list token := match ts with TSuffix _ :: r => r | _ => ts end.
Lemma kept_imp : forall A (P Q : A -> list token -> Prop) r, (forall a ts', P a ts' -> Q a ts') -> kept P r -> kept Q r.
Proof. intros A P Q [[a ts']|e|u|] H K; try exact Logic.I. destruct K. split; auto. Qed.
Lemma core_ws : forall m ts0, Forall tok_ok ts0 ->
  kept (fun i ts' => ws ts0 = wi i + ws ts' \/ ((exists r, drop_suffix ts0 = punct "(" :: r) /\ bare i)) (parse_instruction_core (TMnem m :: ts0)).
Proof.
  intros m ts0 F0. unfold parse_instruction_core. cbv zeta. apply q_front. intros t T.
  assert (P : exists sfx, match t with TSuffix s => (s, tl ts0) | _ => (S_none, ts0) end = (sfx, drop_suffix ts0) /\ ws ts0 = ws (drop_suffix ts0) /\ Forall tok_ok (drop_suffix ts0)).
  { destruct ts0 as [|t0 ts0]; [discriminate T|]. injection T as ->. destruct t; try (eexists; split; [reflexivity|split; [reflexivity|exact F0]]).
    eexists. split; [reflexivity|]. split; [reflexivity|]. apply Forall_inv_tail in F0. exact F0. }
  destruct P as (sfx & -> & -> & F). generalize (drop_suffix ts0) F. clear F T F0 t ts0. intros ts F.
  repeat (qstep; try match goal with |- kept _ (p_bare _ _ ?x) => fail 1 end).
  all: try (left; unfold wi; cbn [i_arg1 i_arg2 wo]; lia).
  all: try (eapply kept_imp; [|apply bare_ws; tk]; cbn beta; intros i0 ts9 [W B]; first [left; lia | right; split; [|exact B]]).
  all: destruct ts as [|u ts]; [discriminate|]; match goal with H : front (u :: ts) = Ok ?t, E : is_char "(" ?t = true |- _ => injection H as ->; exists ts; f_equal; clear -E end.
  all: match goal with E : is_char _ ?t = true |- _ => destruct t; try discriminate E; cbn in E; apply Z.eqb_eq in E; subst; reflexivity end.
Qed.
Lemma mode_ws : forall ts, Forall tok_ok ts -> kept (fun f ts' => ws ts = 1 + ws ts') (p_mode ts).
Proof. intros [|[] ts] F; try exact Logic.I. cbn [p_mode]. destruct (flags_from_name s); [|exact Logic.I]. apply Forall_inv_tail in F. split; [reflexivity|exact F]. Qed.
Lemma return_ws : forall ts, Forall tok_ok ts -> kept (fun r ts' => ws ts = wrc r + ws ts') (parse_return_convention ts).
Proof.
  intros [|t ts] F; [exact Logic.I|]. unfold parse_return_convention. cbn [front bind tl]. destruct (is_punct P_noreturn t) eqn:E1.
  - apply Forall_inv_tail in F. split; [cbn [ws wrc]; rewrite (punct_ws _ _ E1) by (cbv; reflexivity); lia|exact F].
  - destruct (is_punct P_yields t) eqn:E2; [|split; [reflexivity|exact F]]. apply Forall_inv_tail in F. pose proof (mode_ws ts F) as M.
    destruct (p_mode ts) as [[f ts']| | |]; try exact Logic.I. destruct M as [M F']. split; [cbn [ws wrc]; rewrite (punct_ws _ _ E2) by (cbv; reflexivity); lia|exact F'].
Qed.
Lemma q_bind : forall A B (P : A -> list token -> Prop) (Q : B -> list token -> Prop) r k, kept P r ->
  (forall a ts', P a ts' -> Forall tok_ok ts' -> kept Q (k (a, ts'))) -> kept Q (bind r k).
Proof. intros A B P Q [[a ts']|e|u|] k H K; try exact Logic.I. apply K; apply H. Qed.
Lemma instruction_ws : forall m ts0, Forall tok_ok ts0 ->
  kept (fun i ts' => ws ts0 = wi i + wrc (i_ret i) + ws ts' \/ ((exists r, drop_suffix ts0 = punct "(" :: r) /\ bare i)) (parse_instruction (TMnem m :: ts0)).
Proof.
  intros m ts0 F. unfold parse_instruction. eapply q_bind; [apply core_ws; exact F|]. cbn beta. intros i ts1 C F1.
  eapply q_bind; [apply return_ws; exact F1|]. cbn beta. intros rc ts2 R F2. destruct (_ && _); [exact Logic.I|]. split; [|exact F2].
  destruct C as [C|[L B]]; [left; unfold wi in *; cbn [i_arg1 i_arg2 i_ret]; lia|right; split; [exact L|exact B]].
Qed.
Fixpoint wl (l : list expr) : Z := match l with [] => 0 | e :: l' => we e + wl l' end.
Lemma wl_app : forall a b, wl (a ++ b) = wl a + wl b.
Proof. induction a as [|e a IH]; intros b; [reflexivity|]. cbn [app wl]. rewrite IH. lia. Qed.
Lemma list_ws : forall f acc ts, Forall tok_ok ts -> kept (fun l ts' => wl acc + ws ts = wl l + ws ts') (p_list f acc ts).
Proof.
  induction f as [|f IH]; intros acc ts F; [exact Logic.I|]. cbn [p_list]. apply q_expr; [exact F|]. intros e ts1 W F1. apply q_any. intros [|].
  - split; [rewrite wl_app; cbn [wl]; lia|exact F1].
  - apply q_consume; [discriminate|exact F1|]. intros ts2 W2 F2. eapply kept_imp; [|apply IH; exact F2]. cbn beta. intros l ts3. rewrite wl_app. cbn [wl]. lia.
Qed.
Lemma directive_ws : forall d ts0, Forall tok_ok ts0 -> kept (fun x ts' => match directive_type_by_name d with DT_flag_arg | DT_calling_convention_arg | DT_remote_arg => True | _ => ws ts0 = wo (d_arg x) + wl (d_list x) + ws ts' end) (parse_directive (TDir d :: ts0)).
Proof.
  intros d ts0 F. unfold parse_directive. cbv zeta. destruct (directive_type_by_name d) eqn:DT.
  - apply q_any. intros _. split; [cbn; lia|exact F].
  - apply q_expr; [exact F|]. intros e ts1 W F1. apply q_any. intros _. split; [cbn; lia|exact F1].
  - apply q_expr; [exact F|]. intros e ts1 W F1. destruct (requires_lookup e); [exact Logic.I|]. apply q_any. intros _. split; [cbn; lia|exact F1].
  - eapply q_bind; [apply mode_ws; exact F|]. intros f ts1 _ F1. apply q_any. intros _. eapply q_bind; [apply return_ws; exact F1|]. intros rc ts2 _ F2. apply q_any. intros _. split; [exact Logic.I|exact F2].
  - eapply q_bind; [apply mode_ws; exact F|]. intros f ts1 _ F1. apply q_any. intros _. eapply q_bind; [apply return_ws; exact F1|]. intros rc ts2 _ F2. apply q_any. intros _. split; [exact Logic.I|exact F2].
  - eapply q_bind; [apply list_ws; exact F|]. cbn beta. intros l ts1 W F1. split; [cbn in *; lia|exact F1].
  - apply q_expr; [exact F|]. intros e ts1 W F1. destruct (simple_identifier e); [|exact Logic.I]. apply q_any. intros _. split; [cbn; lia|exact F1].
  - apply q_expr; [exact F|]. intros e ts1 W F1. eapply q_bind; [apply mode_ws; exact F1|]. intros f ts2 _ F2. apply q_any. intros _. eapply q_bind; [apply return_ws; exact F2|]. intros rc ts3 _ F3. apply q_any. intros _. split; [exact Logic.I|exact F3].
Qed.
(** ** One statement on a line. *)
Lemma plain_ended : forall body, forallb plain body = true -> ended (body ++ [TEol]).
Proof.
  intros body P. exists body. split; [reflexivity|]. intros I. rewrite forallb_forall in P. specialize (P _ I). discriminate P.
Qed.
Lemma over_end : forall body ts', forallb plain body = true -> over (body ++ [TEol]) ts' -> at_end ts' = Ok true -> ts' = [TEol].
Proof.
  intros body ts' P O A. pose proof (ended_over _ _ O (plain_ended body P)) as E. destruct O as (pre & EQ & PP).
  destruct ts' as [|t ts']; [discriminate A|]. unfold at_end in A. cbn [front bind] in A. injection A as A.
  assert (I : In t (body ++ [TEol])) by (rewrite EQ; apply in_or_app; right; left; reflexivity). apply in_app_or in I as [I|[<-|[]]].
  - rewrite forallb_forall in P. specialize (P t I). unfold tok_at_end in A. apply orb_prop in A as [A|A]; destruct t; try discriminate A; try discriminate P.
    cbn in A. apply Z.eqb_eq in A. subst p. discriminate P.
  - apply ended_eol in E. subst. reflexivity.
Qed.
Lemma one_instr : forall m body i, forallb plain body = true -> parse (TMnem m :: body ++ [TEol]) = Ok [PStmt (SInstr i)] ->
  parse_instruction (TMnem m :: body ++ [TEol]) = Ok (i, [TEol]).
Proof.
  intros m body i P H. unfold parse in H. cbn [List.length] in H. rewrite parse_loop_eq in H.
  change (p_label (TMnem m :: body ++ [TEol])) with (Ok (@nil parsed, TMnem m :: body ++ [TEol], false)) in H. cbn [bind app] in H. unfold stmt_part in H. cbn [front bind] in H.
  change (tok_at_end (TMnem m)) with false in H. change (is_char "{" (TMnem m) || is_char "}" (TMnem m))%bool with false in H. cbn [tok_dir tok_mnem] in H.
  pose proof (instruction_fine m (body ++ [TEol])) as FN. bok H as q Q. rewrite Q in FN. destruct q as [i' ts']. destruct FN as [_ O]. bok H as b B. destruct b; [|discriminate H].
  pose proof (over_end body ts' P O B) as ->. cbn [tl] in H. rewrite parse_loop_eq in H. cbn [app] in H. injection H as <-. exact Q.
Qed.
Lemma one_dir : forall n body d, forallb plain body = true -> parse (TDir n :: body ++ [TEol]) = Ok [PStmt (SDir d)] ->
  parse_directive (TDir n :: body ++ [TEol]) = Ok (d, [TEol]).
Proof.
  intros n body i P H. unfold parse in H. cbn [List.length] in H. rewrite parse_loop_eq in H.
  change (p_label (TDir n :: body ++ [TEol])) with (Ok (@nil parsed, TDir n :: body ++ [TEol], false)) in H. cbn [bind app] in H. unfold stmt_part in H. cbn [front bind] in H.
  change (tok_at_end (TDir n)) with false in H. change (is_char "{" (TDir n) || is_char "}" (TDir n))%bool with false in H. cbn [tok_dir tok_mnem] in H.
  pose proof (directive_fine n (body ++ [TEol])) as FN. bok H as q Q. rewrite Q in FN. destruct q as [i' ts']. destruct FN as [_ O]. bok H as b B. destruct b; [|discriminate H].
  pose proof (over_end body ts' P O B) as ->. cbn [tl] in H. rewrite parse_loop_eq in H. cbn [app] in H. injection H as <-. exact Q.
Qed.
Lemma mode_ws_tokens : forall a p q, ws (mode_tokens a p q) = (if uses1 a then ws p else 0) + (if uses2 a then ws q else 0).
Proof. intros a p q. destruct a; cbn [mode_tokens uses1 uses2 ws]; rewrite ?ws_app; cbn [ws app]; rewrite ?ws_app; cbn; try lia. Qed.
Lemma mode_plain : forall a p q, forallb plain p = true -> forallb plain q = true -> forallb plain (mode_tokens a p q) = true.
Proof. intros a p q P Q. destruct a; cbn [mode_tokens forallb]; rewrite ?forallb_app; cbn [forallb app]; rewrite ?forallb_app, ?P, ?Q; reflexivity. Qed.
Lemma rc_plain : forall r, forallb plain (rc_tokens r) = true /\ ws (rc_tokens r) = wrc r.
Proof. intros [|f|]; split; reflexivity. Qed.
Lemma instr_exact : forall i, instr_ok i -> read_as (instr_to_string i) [PStmt (SInstr i)] -> plain_statement (SInstr i).
Proof.
  intros i (((s & D & SH) & SX) & R & RM) (ts & T & P). split; [|intros d E; discriminate E].
  destruct (ret_back _ R) as [RO _]. pose proof D as D'. apply deduce_exact in D' as (OP & IN & OK). destruct (shaped_uses _ _ _ _ IN SH) as (U1 & V1 & U2 & V2).
  assert (X1 : exists p, (uses1 (i_mode i) = true -> lexes (expr_opt_to_string (i_arg1 i)) p /\ match p with [] | TSuffix _ :: _ => False | t :: _ => t <> punct "(" end) /\ forallb plain p = true /\
    (if uses1 (i_mode i) then ws p else 0) = wo (i_arg1 i) + match i_arg1 i with Some e => extra e | None => 0 end /\ (forall e, i_arg1 i = Some e -> expr_ok e)).
  { destruct (uses1 (i_mode i)).
    - destruct (U1 eq_refl) as (x & -> & O). destruct (all_shown x O) as (p & L & W & PP & HD). exists p. split; [intros _; split; assumption|]. split; [exact PP|]. split; [exact W|intros e E; injection E as <-; exact O].
    - rewrite (V1 eq_refl). exists []. repeat split; discriminate. }
  assert (X2 : exists p, (uses2 (i_mode i) = true -> lexes (expr_opt_to_string (i_arg2 i)) p) /\ forallb plain p = true /\
    (if uses2 (i_mode i) then ws p else 0) = wo (i_arg2 i) + match i_arg2 i with Some e => extra e | None => 0 end /\ (forall e, i_arg2 i = Some e -> expr_ok e)).
  { destruct (uses2 (i_mode i)).
    - destruct (U2 eq_refl) as (x & -> & O). destruct (all_shown x O) as (p & L & W & PP & HD). exists p. split; [intros _; assumption|]. split; [exact PP|]. split; [exact W|intros e E; injection E as <-; exact O].
    - rewrite (V2 eq_refl). exists []. repeat split; discriminate. }
  destruct X1 as (p & L1 & P1 & W1 & O1). destruct X2 as (q & L2 & P2 & W2 & O2).
  pose proof (instr_lex i p q (fun u => proj1 (L1 u)) L2 RO) as LX. rewrite T in LX. injection LX as ->.
  destruct (rc_plain (i_ret i)) as [PR WR].
  set (body := suffix_tokens (i_suffix i) ++ mode_tokens (i_mode i) p q ++ rc_tokens (i_ret i)).
  assert (EB : (TMnem (i_mnem i) :: suffix_tokens (i_suffix i) ++ mode_tokens (i_mode i) p q ++ rc_tokens (i_ret i) ++ [TEol]) = TMnem (i_mnem i) :: body ++ [TEol]) by (unfold body; rewrite <- !app_assoc; reflexivity).
  rewrite EB in P, T. clear EB.
  assert (PB : forallb plain body = true) by (unfold body; rewrite !forallb_app, PR, mode_plain by assumption; destruct (i_suffix i); reflexivity).
  apply one_instr in P; [|exact PB]. pose proof (instruction_ws (i_mnem i) (body ++ [TEol]) (Forall_inv_tail (tokens_ok _ _ T))) as K. rewrite P in K. destruct K as [K _].
  assert (WB : ws (body ++ [TEol]) = (if uses1 (i_mode i) then ws p else 0) + (if uses2 (i_mode i) then ws q else 0) + wrc (i_ret i)).
  { unfold body. rewrite !ws_app, mode_ws_tokens, WR. destruct (i_suffix i); cbn; lia. }
  destruct K as [K|[[r HD] (s' & I & B)]].
  - unfold wi in K. cbn [ws wt] in K. assert (EX : match i_arg1 i with Some e => extra e | None => 0 end + match i_arg2 i with Some e => extra e | None => 0 end = 0) by lia.
    assert (N1 : 0 <= match i_arg1 i with Some e => extra e | None => 0 end) by (destruct (i_arg1 i); [apply extra_pos|lia]).
    assert (N2 : 0 <= match i_arg2 i with Some e => extra e | None => 0 end) by (destruct (i_arg2 i); [apply extra_pos|lia]).
    intros e [E|E]; rewrite E in *; apply extra_plain; auto; lia.
  - exfalso. apply deduce_exact in B as (_ & IN' & _).
    assert (MT : uses1 (i_mode i) = true /\ exists p', mode_tokens (i_mode i) p q = p ++ p').
    { destruct (i_mode i); cbn [written_as In] in IN'; cbn [In] in I; try (exfalso; intuition congruence); (split; [reflexivity|]); cbn [mode_tokens]; eexists; first [reflexivity|symmetry; apply app_nil_r]. }
    destruct MT as [U (p' & MT)]. destruct (L1 U) as [_ HP]. unfold body in HD. rewrite MT in HD. destruct p as [|t0 p]; [destruct HP|].
    assert (HD' : t0 = punct "(").
    { assert (DS : forall x, drop_suffix (t0 :: x) = t0 :: x) by (intros x; destruct t0; try reflexivity; destruct HP).
      destruct (i_suffix i); cbn [suffix_tokens app] in HD; try rewrite DS in HD; cbn [drop_suffix] in HD; exact (f_equal (hd TEol) HD). }
    subst t0. apply HP. reflexivity.
Qed.
(** ** Directives. *)
Definition xl (l : list expr) : Z := fold_right (fun e n => extra e + n) 0 l.
Lemma xl_pos : forall l, 0 <= xl l.
Proof. induction l as [|e l IH]; cbn; [lia|]. pose proof (extra_pos e). unfold xl in IH. lia. Qed.
Lemma xl_in : forall l, xl l = 0 -> forall e, In e l -> extra e = 0.
Proof.
  induction l as [|a l IH]; intros X e I; [destruct I|]. cbn in X. fold (xl l) in X. pose proof (extra_pos a). pose proof (xl_pos l). destruct I as [<-|I]; [lia|apply IH; [lia|exact I]].
Qed.
Lemma join_shown : forall l, Forall expr_ok l -> exists ps, Forall2 (fun e p => lexes (expr_to_string e) p) l ps /\
  ws (join_tokens ps) = wl l + xl l /\ forallb plain (join_tokens ps) = true.
Proof.
  induction 1 as [|e l O F (ps & L & W & P)]; [exists []; repeat split; constructor|]. destruct (all_shown e O) as (p & L1 & W1 & P1 & _).
  exists (p :: ps). split; [constructor; assumption|]. destruct L as [|e' p' l ps L' L].
  - cbn in *. split; [lia|exact P1].
  - change (join_tokens (p :: p' :: ps)) with (p ++ punct "," :: join_tokens (p' :: ps)). rewrite ws_app, forallb_app, P1. cbn [ws forallb]. rewrite W, P, W1. split; [cbn; lia|reflexivity].
Qed.
Lemma no_dir : forall body a b d, forallb plain body = true -> ~ In (IDir d) (items a b (body ++ [TEol])).
Proof.
  induction body as [|t body IH]; intros a b d P I; [destruct I|]. cbn in P. apply andb_prop in P as [PT P].
  destruct t; try discriminate PT; cbn [app items] in I; try (eapply IH; eassumption).
  - destruct a; [destruct I as [I|I]; [discriminate I|]|]; eapply IH; eassumption.
  - cbn in PT. apply andb_prop in PT as [PT H3]. apply andb_prop in PT as [H1 H2]. apply negb_true_iff in H1, H2, H3.
    change (code "{") with 123 in I. change (code "}") with 125 in I. change (code ":") with 58 in I. rewrite H1, H2, H3 in I. eapply IH; eassumption.
Qed.
Lemma plain_stray : forall body, forallb plain body = true -> ~ stray_colon (body ++ [TEol]).
Proof.
  intros body P (a & b & E & _). assert (I : In (punct ":") (body ++ [TEol])) by (rewrite E; apply in_or_app; right; left; reflexivity).
  apply in_app_or in I as [I|[I|[]]]; [|discriminate I]. rewrite forallb_forall in P. specialize (P _ I). discriminate P.
Qed.
Lemma dir_exact : forall d, dir_ok d -> read_as (directive_to_string d) [PStmt (SDir d)] -> plain_statement (SDir d).
Proof.
  intros [n a f r l] O (ts & T & P). unfold dir_ok in O. cbn [d_name d_arg d_flags d_ret d_list] in *.
  assert (NR : n <> D_remote).
  { intros ->. cbn [directive_type_by_name] in O. destruct O as (e & -> & EO). destruct (all_shown e EO) as (p & L & _ & PP & _).
    unfold directive_to_string in T. cbn [d_name d_arg d_flags directive_type_by_name] in T. change (dir_to_string D_remote) with "" in T. cbn [String.append] in T. rewrite lex_space in T.
    pose proof (lexes_end _ _ (lex_ident _ (flags_name_ident f))) as LF.
    assert (X : tokenize (String " " (flags_to_name f)) = Ok ([TIdent (flags_to_name f)] ++ [TEol])) by (rewrite lex_space; exact LF).
    pose proof (L (String " " (flags_to_name f)) _ eq_refl X) as Y. cbn [expr_opt_to_string] in T. rewrite T in Y. injection Y as ->. change (parse (p ++ [TIdent (flags_to_name f)] ++ [TEol]) = Ok [PStmt (SDir (Directive D_remote (Some e) f r l))]) in P. rewrite app_assoc in P.
    assert (PB : forallb plain (p ++ [TIdent (flags_to_name f)]) = true) by (rewrite forallb_app, PP; reflexivity).
    pose proof (parse_line _ (plain_ended _ PB)) as PL. rewrite P in PL. specialize (PL (plain_stray _ PB)). cbn [map parsed_item d_name] in PL.
    apply (no_dir (p ++ [TIdent (flags_to_name f)]) true false D_remote PB). rewrite <- PL. left. reflexivity. }
  split; [|intros d E; injection E as <-; exact NR]. unfold operand. cbn [d_arg d_list].
  unfold directive_to_string in T. cbn [d_name d_arg d_flags d_ret d_list] in T.
  assert (ONE : forall e, expr_ok e -> a = Some e -> l = [] -> tokenize (dir_to_string n ++ " " ++ expr_opt_to_string a)%string = Ok ts ->
     match directive_type_by_name n with DT_flag_arg | DT_calling_convention_arg | DT_remote_arg => False | _ => True end -> forall x, a = Some x \/ In x l -> plain_operand x).
  { intros e EO -> -> TT NF x [X|[]]. injection X as <-. destruct (all_shown e EO) as (p & L & W & PP & _). cbn [expr_opt_to_string] in TT.
    rewrite (dir_space n _ _ NR (lexes_end _ _ L)) in TT. injection TT as <-. apply one_dir in P; [|exact PP].
    pose proof (dir_space n _ _ NR (lexes_end _ _ L)) as TS. pose proof (directive_ws n (p ++ [TEol]) (Forall_inv_tail (tokens_ok _ _ TS))) as K. rewrite P in K. destruct K as [K _].
    cbn [d_arg d_list wo wl ws wt] in K. rewrite ws_app in K. cbn [ws wt] in K. apply extra_plain; [exact EO|]. destruct (directive_type_by_name n); try contradiction; lia. }
  destruct (directive_type_by_name n) eqn:DT.
  - destruct O as (-> & -> & -> & ->). intros e [E|E]; [discriminate E|destruct E].
  - destruct O as (e & EA & EO & _ & _ & EL & _). eapply ONE; try eassumption. exact Logic.I.
  - destruct O as (e & EA & EO & _ & _ & EL & _). eapply ONE; try eassumption. exact Logic.I.
  - destruct O as (-> & _ & _ & ->). intros e [E|E]; [discriminate E|destruct E].
  - destruct O as (-> & _ & _ & ->). intros e [E|E]; [discriminate E|destruct E].
  - destruct O as (-> & _ & _ & N & FO). destruct (join_shown l FO) as (ps & L & W & PP). pose proof (dir_space n _ _ NR (lexes_end _ _ (join_lexes l ps L N))) as TS. rewrite TS in T. injection T as <-.
    apply one_dir in P; [|exact PP]. pose proof (directive_ws n (join_tokens ps ++ [TEol]) (Forall_inv_tail (tokens_ok _ _ TS))) as K. rewrite P, DT in K. destruct K as [K _].
    cbn [d_arg d_list wo ws wt] in K. rewrite ws_app in K. cbn [ws wt] in K. intros e [E|E]; [discriminate E|]. apply extra_plain; [rewrite Forall_forall in FO; apply FO; exact E|].
    apply (xl_in l); [lia|exact E].
  - destruct O as (e & EA & EO & _ & _ & EL & _). eapply ONE; try eassumption. exact Logic.I.
  - exfalso. destruct n; try discriminate DT. apply NR. reflexivity.
Qed.
Lemma shown_exact : forall line l p, read_as line l -> In p l -> (read_as (entity_line p) [p] <-> plain_parsed p).
Proof.
  intros line l p R I. split; [|apply (shown line l p R I)]. pose proof (proj1 (Forall_forall _ _) (line_parsed line l R) p I) as O.
  destruct p as [n x|[i|d]]; cbn [plain_parsed entity_ok entity_line stmt_to_string] in *; intros S; [exact Logic.I|..];
  destruct S as (ts & T & Q); cbn [String.append] in T; rewrite !lex_space in T.
  - apply instr_exact; [exact O|]. exists ts. split; assumption.
  - apply dir_exact; [exact O|]. exists ts. split; assumption.
Qed.

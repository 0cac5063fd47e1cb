(** Where parsed statements come from. *)
From Verif Require Import BaseProofs ModelNumeric ModelMnemonic ModelExpr ModelAMode ModelState ModelInstr
  ModelStatement ModelToken ModelParse SpecText TokenProofs ParseProofs.
Open Scope list_scope.
Local Opaque next_token.

(** ** Tokens. *)
Definition good_token (t : token) : Prop :=
  match t with
  | TIdent s => s <> ""%string
  | TLit v _ => -2147483648 <= v <= 2147483647
  | _ => True
  end.
Lemma strtol_int_range : forall b s, -2147483648 <= strtol_int b s <= 2147483647.
Proof.
  intros. unfold strtol_int. generalize (Z.min (digits_value b 0 s) 9223372036854775807). intros v.
  unfold to_int32. destruct (Z.leb_spec 2147483648 (v mod 4294967296)); lia.
Qed.
Lemma word_good : forall c w, good_token (word_token (String c w)).
Proof.
  intros c w. unfold word_token. destruct (to_mnemonic (String c w)); [exact I|].
  match goal with |- good_token (match ?x with Some _ => _ | None => _ end) => destruct x end; [exact I|].
  destruct (_ =? _)%string; [exact I|]. destruct (_ =? _)%string; [exact I|].
  destruct (_ =? _)%string; [exact I|]. discriminate.
Qed.
Lemma dotted_good : forall w t, dotted_token w = Ok t -> good_token t.
Proof.
  intros w t H. unfold dotted_token in H. destruct (to_directive_name w); [injection H as <-; exact I|].
  destruct (to_suffix w); [injection H as <-; exact I|discriminate].
Qed.
Lemma next_good : forall s t r, next_token s = Ok (t, r) -> good_token t.
Proof.
  intros s t r H. rewrite next_token_eq in H. unfold next_alt, take_lit in H. destruct s as [|c s]; [discriminate|].
  repeat match type of H with
  | (if ?b then _ else _) = _ => destruct b; [try (injection H as <- _; exact I)|]
  | Ok (let (_, _) := span ?f ?x in _) = _ => destruct (span f x); injection H as <- _; apply strtol_int_range
  end.
  - destruct (span is_ident_char s) as [w rest]. bok H as t' E. injection H as <- _. eapply dotted_good. exact E.
  - destruct (span is_ident_char s) as [w rest]. injection H as <- _. apply word_good.
  - discriminate.
Qed.
Lemma tokenize_good : forall s ts, tokenize s = Ok ts -> Forall good_token ts.
Proof.
  intros s. induction s as [s E|s r E|s c r e E Hc En|s c r t rest E Hc En Ht IH] using tokenize_ind;
    intros ts H; rewrite tokenize_eq, E in H.
  - injection H as <-. repeat constructor.
  - injection H as <-. repeat constructor.
  - destruct (Ascii.eqb_spec c ";"); [congruence|]. rewrite En in H. discriminate.
  - destruct (Ascii.eqb_spec c ";"); [congruence|]. rewrite En in H. cbn [bind] in H.
    destruct (tokenize rest) as [ts'|e|u|] eqn:T; try discriminate. injection H as <-. constructor; [eapply next_good; exact En|]. apply IH. reflexivity.
Qed.

(** ** Statements. *)
(** The tokens [ts'] end [ts]. *)
Definition tail_of (ts ts' : list token) : Prop := exists pre, ts = pre ++ ts'.
Lemma tail_refl : forall ts, tail_of ts ts.
Proof. intros ts. exists []. reflexivity. Qed.
Lemma tail_trans : forall a b c, tail_of a b -> tail_of b c -> tail_of a c.
Proof. intros a b c [p ->] [q ->]. exists (p ++ q). rewrite app_assoc. reflexivity. Qed.
Lemma tail_tl : forall ts, tail_of ts (tl ts).
Proof. intros [|t ts]; [exists []; reflexivity|exists [t]; reflexivity]. Qed.
Lemma tail_forall : forall P ts ts', tail_of ts ts' -> Forall P ts -> Forall P ts'.
Proof. intros P ts ts' [pre ->] H. apply Forall_app in H. apply H. Qed.
Lemma over_tail : forall ts ts', over ts ts' -> tail_of ts ts'.
Proof. intros ts ts' (pre & E & _). exists pre. exact E. Qed.

Definition origin (ts : list token) (p : parsed) : Prop :=
  match p with
  | PLabel n _ => In (TIdent n) ts
  | PStmt (SInstr i) => exists m ts' r, tail_of ts (TMnem m :: ts') /\ parse_instruction (TMnem m :: ts') = Ok (i, r)
  | PStmt (SDir d) =>
      (exists n ts' r, tail_of ts (TDir n :: ts') /\ parse_directive (TDir n :: ts') = Ok (d, r)) \/
      (exists n, (n = D_begin \/ n = D_end) /\ d = Directive n None default_flags RC_default [])
  end.
Lemma origin_tail : forall ts ts' p, tail_of ts ts' -> origin ts' p -> origin ts p.
Proof.
  intros ts ts' [n x|[i|d]] T; cbn.
  - destruct T as [pre ->]. intros H. apply in_or_app. auto.
  - intros (m & u & r & U & P). exists m, u, r. split; [eapply tail_trans; eassumption|exact P].
  - intros [(m & u & r & U & P)|H]; [left|right; exact H].
    exists m, u, r. split; [eapply tail_trans; eassumption|exact P].
Qed.
Lemma origins_tail : forall ts ts' l, tail_of ts ts' -> Forall (origin ts') l -> Forall (origin ts) l.
Proof. intros ts ts' l T. apply Forall_impl. intros p. apply origin_tail. exact T. Qed.

Lemma front_ok : forall ts t, front ts = Ok t -> exists r, ts = t :: r.
Proof. intros [|x r] t H; cbn in H; [discriminate|]. injection H as ->. eauto. Qed.

Lemma p_label_origin : forall ts lab ts' cont, p_label ts = Ok (lab, ts', cont) ->
  tail_of ts ts' /\ Forall (origin ts) lab.
Proof.
  intros ts lab ts' cont H. unfold p_label in H. bok H as t F.
  assert (K : exists exported us, tail_of ts us /\
    match us with
    | TIdent s :: r => match r with
        | t' :: r' => if is_char ":" t' then Ok ([PLabel s exported], r', true) else Ok ([PLabel s exported], r, false)
        | [] => Ok ([PLabel s exported], r, false)
        end
    | _ => Ok ([], us, false)
    end = Ok (lab, ts', cont)).
  { destruct (is_punct P_export t).
    - bok H as p G. bok G as t' F'. destruct (tok_ident t'); [|discriminate]. injection G as <-.
      exists true, (tl ts). split; [apply tail_tl|exact H].
    - cbn [bind] in H. exists false, ts. split; [apply tail_refl|exact H]. }
  clear H F t. destruct K as (x & us & T & H).
  destruct us as [|[] us]; try (injection H as <- <- <-; split; [exact T|constructor]).
  assert (O : origin ts (PLabel s x)).
  { destruct T as [pre ->]. cbn. apply in_or_app. right. left. reflexivity. }
  assert (T1 : tail_of ts us) by (eapply tail_trans; [exact T|exists [TIdent s]; reflexivity]).
  destruct us as [|t' us]; [injection H as <- <- <-; split; [exact T1|constructor; [exact O|constructor]]|].
  destruct (is_char ":" t'); injection H as <- <- <-; (split; [|constructor; [exact O|constructor]]).
  - eapply tail_trans; [exact T1|apply (tail_tl (t' :: us))].
  - exact T1.
Qed.

Lemma parse_loop_origin : forall f acc ts l, parse_loop f acc ts = Ok l ->
  exists l', l = acc ++ l' /\ Forall (origin ts) l'.
Proof.
  induction f as [|f IH]; intros acc ts l H; cbn [parse_loop] in H; [discriminate|].
  destruct ts as [|t0 ts0]; [injection H as <-; exists []; rewrite app_nil_r; auto|].
  set (ts := t0 :: ts0) in *. bok H as q P. destruct q as [[lab us] cont]. cbn beta iota in H.
  apply p_label_origin in P. destruct P as [T O].
  assert (K : forall acc' ts' s, tail_of us ts' -> origin us (PStmt s) ->
     parse_loop f (acc' ++ [PStmt s]) ts' = Ok l -> acc' = acc ++ lab ->
     exists l', l = acc ++ l' /\ Forall (origin ts) l').
  { intros acc' ts' s T' OS G ->. apply IH in G. destruct G as (l' & -> & F). exists (lab ++ PStmt s :: l').
    split; [rewrite <- !app_assoc; reflexivity|]. apply Forall_app. split; [exact O|]. constructor.
    - eapply origin_tail; eassumption.
    - eapply origins_tail; [|exact F]. eapply tail_trans; eassumption. }
  destruct cont.
  { apply IH in H. destruct H as (l' & -> & F). exists (lab ++ l'). split; [rewrite app_assoc; reflexivity|].
    apply Forall_app. split; [exact O|]. eapply origins_tail; eassumption. }
  bok H as t F. destruct (front_ok _ _ F) as [us' ->]. clear F.
  destruct (tok_at_end t); [injection H as <-; exists lab; auto|].
  destruct (is_char "{" t || is_char "}" t).
  { eapply K; [apply tail_tl| |exact H|reflexivity]. cbn. right. eexists. split; [|reflexivity].
    destruct (is_char "{" t); auto. }
  destruct (tok_dir t) eqn:TD.
  { destruct t; try discriminate TD. bok H as q P. destruct q as [dd vs]. cbn beta iota in H.
    bok H as b B. destruct b; [|discriminate]. pose proof (directive_fine d0 us') as DF. rewrite P in DF.
    destruct DF as [_ DF]. eapply K; [| |exact H|reflexivity].
    - eapply tail_trans; [apply (tail_tl (_ :: us'))|]. eapply tail_trans; [apply over_tail; exact DF|apply tail_tl].
    - cbn. left. exists d0, us', vs. split; [apply tail_refl|exact P]. }
  destruct (tok_mnem t) eqn:TM; [|discriminate].
  destruct t; try discriminate TM. bok H as q P. destruct q as [ii vs]. cbn beta iota in H.
  bok H as b B. destruct b; [|discriminate]. pose proof (instruction_fine m0 us') as DF. rewrite P in DF.
  destruct DF as [_ DF]. eapply K; [| |exact H|reflexivity].
  - eapply tail_trans; [apply (tail_tl (_ :: us'))|]. eapply tail_trans; [apply over_tail; exact DF|apply tail_tl].
  - cbn. exists m0, us', vs. split; [apply tail_refl|exact P].
Qed.
Lemma parse_origin : forall ts l, parse ts = Ok l -> Forall (origin ts) l.
Proof.
  intros ts l H. unfold parse in H. apply parse_loop_origin in H. destruct H as (l' & -> & F). exact F.
Qed.

(** ** Expressions. *)
(** Literals fit in an int and names are not empty. *)
Fixpoint good_expr (e : expr) : Prop :=
  match e with
  | ELit v _ => -2147483648 <= v <= 2147483647
  | EId id _ => fi_name id <> ""%string
  | EBin _ l r => good_expr l /\ good_expr r
  | EUn _ a => good_expr a
  | ELabel _ _ => False
  end.
Lemma grammar_good : forall lv ts e, grammar lv ts e -> Forall good_token ts -> good_expr e.
Proof.
  intros lv ts e G. induction G; intros F; cbn.
  - inversion F; subst. cbn in H1. destruct t; unfold cast_to; cbv zeta;
      rewrite ?land_ff, ?land_ffff, ?land_ffffff; try lia;
      match goal with |- context [if ?b then _ else _] => destruct b end; lia.
  - inversion F; subst. assumption.
  - inversion F as [|? ? ? F1]; subst. inversion F1 as [|? ? ? F2]; subst. inversion F2; subst. assumption.
  - inversion F as [|? ? ? F1]; subst. inversion F1; subst. assumption.
  - inversion F; subst. apply IHG. assumption.
  - inversion F as [|? ? ? F1]; subst. apply Forall_app in F1. apply IHG. apply F1.
  - inversion F; subst. apply IHG. assumption.
  - apply Forall_app in F. destruct F as [F1 F2]. inversion F2; subst. split; auto.
  - apply Forall_app in F. destruct F as [F1 F2]. inversion F2; subst. split; auto.
  - auto.
  - auto.
  - auto.
Qed.
Lemma parse_expr_good : forall ts e r, parse_expr ts = Ok (e, r) -> Forall good_token ts ->
  good_expr e /\ Forall good_token r.
Proof.
  intros ts e r P F. apply expression_rest in P. destruct P as [(p & -> & G) _]. apply Forall_app in F.
  split; [eapply grammar_good; [exact G|apply F]|apply F].
Qed.

(** A .module directive has a name. *)
Lemma module_directive : forall n ts d r, Forall good_token ts -> parse_directive (TDir n :: ts) = Ok (d, r) ->
  d_name d = D_module -> exists id ty, d_arg d = Some (EId (FullId None id) ty) /\ id <> ""%string.
Proof.
  intros n ts d r F P M. pose proof (directive_fine n ts) as DF. rewrite P in DF. destruct DF as [DN _]. subst n.
  rewrite M in P. unfold parse_directive in P. cbn [directive_type_by_name] in P.
  bok P as q E. destruct q as [e us]. destruct (parse_expr_good _ _ _ E F) as [G _].
  destruct (simple_identifier e) as [id|] eqn:SI; [|discriminate]. bok P as u C. injection P as <- _.
  cbn. destruct e as [|[[mn|] nm] ty| | |]; try discriminate SI. cbn in SI. injection SI as ->.
  exists id, ty. split; [reflexivity|exact G].
Qed.

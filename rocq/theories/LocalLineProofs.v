(** Proofs that an error of the parser depends on nothing behind the token it is about: instructions, directives and lines. *)
From Verif Require QuietProofs.
From Verif Require Import BaseProofs ModelNumeric ModelMnemonic ModelExpr ModelAMode ModelOpcode
  ModelState ModelInstr ModelToken ModelStatement ModelParse ModelAddress ModelMap ModelRom ModelTools ModelLocation ModelRomText ModelInteractive
  ModelParseText SpecParseText TokenProofs ParseProofs ParseTextProofs LocalProofs.
Open Scope string_scope.
Open Scope list_scope.
Open Scope Z_scope.

(** ** What a parenthesis begins. *)
Lemma any_fuel : forall A (g : nat -> list token -> pres A) f k ts, (forall f ts, g f ts <> PFuel -> g (S f) ts = g f ts) -> g f ts <> PFuel -> (f <= k)%nat -> g k ts = g f ts.
Proof. intros A g f k ts M N L. replace k with ((k - f) + f)%nat by lia. exact (more_any _ (fun f => g f ts) f (k - f) (fun f => M f ts) N). Qed.
Definition t_rest (l : location) (a : expr) (ts : list token) : pres (expr * list token) :=
  let^ (a1, ts1) := t_term_loop l (6 * List.length ts + 6) a ts in t_expr_loop l (6 * List.length ts1 + 6) a1 ts1.
Lemma local_rest : forall l a, local (names l) (t_rest l a).
Proof.
  intros l a. apply (local_bind _ _ _ (fun ts => t_term_loop l (6 * List.length ts + 6) a ts) (fun a1 ts1 => t_expr_loop l (6 * List.length ts1 + 6) a1 ts1)).
  - apply (local_enough _ _ (fun f => t_term_loop l f a) (fun ts => (6 * List.length ts + 6)%nat)); [intros f; apply more_fuel|intros ts; apply enough_fuel; lia|intros f; apply local_exprs].
  - intros a1. apply (local_enough _ _ (fun f => t_expr_loop l f a1) (fun ts => (6 * List.length ts + 6)%nat)); [intros f; apply more_fuel|intros ts; apply enough_fuel; lia|intros f; apply local_exprs].
Qed.
Lemma char_punct : forall c t, is_char c t = true -> t = TPunct (code c).
Proof. intros c [] H; try discriminate. apply Z.eqb_eq in H. subst. reflexivity. Qed.
Lemma paren_rest : forall l tp ts arg1 t2 ts2, is_char "(" tp = true -> t_parse_expr l ts = POk (arg1, t2 :: ts2) -> is_char ")" t2 = true ->
  t_parse_expr l (tp :: ts) = t_rest l arg1 ts2.
Proof.
  intros l tp ts arg1 t2 ts2 P E C. apply char_punct in P. subst tp.
  assert (SH : (List.length (t2 :: ts2) < List.length ts)%nat) by exact (shorter _ _ _ _ _ (bare_parse_expr l ts) (parse_expr_fine ts) E). cbn [List.length] in SH.
  set (tp := TPunct (code "(")) in *. set (G := (6 * List.length ts + 20)%nat).
  assert (X : t_parse_expr l (tp :: ts) = t_expr l (S (S (S (S G)))) (tp :: ts)).
  { unfold t_parse_expr. symmetry. apply (any_fuel _ (t_expr l)); [apply more_fuel|apply enough_fuel; lia|]. subst G. cbn [List.length]. lia. }
  rewrite X. cbn [t_expr]. change (t_term l (S (S (S G))) (tp :: ts)) with (let^ (t, ts1) := t_factor l (S (S G)) (tp :: ts) in t_term_loop l (S (S G)) t ts1).
  rewrite factor_S. change (unaryop tp) with (@None unop). rewrite comp_S. change (is_char "@" tp) with false. change (t_ident l false (tp :: ts)) with (@None (pres (expr * list token))). change (is_char "(" tp) with true. subst tp. cbv beta iota.
  assert (EX : t_expr l G ts = POk (arg1, t2 :: ts2)).
  { rewrite <- E. apply (any_fuel _ (t_expr l)); [apply more_fuel|apply enough_fuel; lia|]. subst G. lia. }
  rewrite EX. cbn [pbind t_consume]. rewrite C. cbn [pbind]. unfold t_rest.
  rewrite (any_fuel _ (fun f ts => t_term_loop l f arg1 ts) (6 * List.length ts2 + 6)); [|intros f ts0; apply more_fuel|apply enough_fuel; lia|subst G; lia].
  destruct (t_term_loop l (6 * List.length ts2 + 6) arg1 ts2) as [[a1 ts1]|e|u|] eqn:TL; try reflexivity. cbn [pbind].
  assert (S1 : (List.length ts1 <= List.length ts2)%nat).
  { pose proof (proj1 (proj2 (proj2 (proj2 (bare_exprs l (6 * List.length ts2 + 6))))) arg1 ts2) as B. rewrite TL in B. cbn [bare] in B.
    pose proof (proj1 (proj2 (proj2 (proj2 (exprs_fine (6 * List.length ts2 + 6))))) arg1 ts2 ltac:(lia)) as F. rewrite <- B in F. cbn in F. apply over_len. exact F. }
  apply (any_fuel _ (fun f ts => t_expr_loop l f a1 ts)); [intros f ts0; apply more_fuel|apply enough_fuel; lia|subst G; lia].
Qed.

(** ** Instructions. *)
Definition about (l : location) (m : mnemonic) (e : rerror) (t : token) : Prop :=
  names l e t \/ (In (re_kind e) [E_no_mode; E_suffix] /\ mentions (re_text e) (mnem_to_string m)).
Lemma about_names : forall l m e t, names l e t -> about l m e t.
Proof. intros l m e t H. left. exact H. Qed.
Lemma mentions_mid : forall a p b, mentions (a ++ p ++ b)%string p.
Proof. intros a p b. exists a, b. reflexivity. Qed.
Lemma mentions_front : forall p b, mentions (p ++ b)%string p.
Proof. intros p b. exists "", b. reflexivity. Qed.
Lemma must_mentions : forall a b m c, mentions (must_be a b m c) (mnem_to_string m).
Proof. intros a b m c. unfold must_be. apply mentions_add, mentions_mid. Qed.
Lemma deduce_mentions : forall m s a1 a2, mentions (deduce_text m s a1 a2) (mnem_to_string m).
Proof.
  intros m s a1 a2. unfold deduce_text. destruct (is_branch_mnemonic m); [apply mentions_mid|]. destruct (_ && _); [apply mentions_mid|].
  pose proof (must_mentions) as MM.
  destruct s; try apply mentions_front; try (destruct (is_alu_mnemonic m); [apply MM|]); destruct m; first [apply mentions_front|apply MM|destruct (is_alu_mnemonic _); [apply MM|apply mentions_front]].
Qed.
Lemma near_finish : forall (l : location) (m : mnemonic) sfx sam a1 a2 t, near_at (about l m) t (t_finish l m sfx sam a1 a2).
Proof.
  intros l m sfx sam a1 a2 t. unfold t_finish. apply (near_look _ _ _ _ (fun _ => t_create_instruction l m sfx sam a1 a2) (fun i ts => POk (i, ts)) (t_create_instruction l m sfx sam a1 a2)); [reflexivity| |intros i _; apply near_ret].
  intros e H. unfold t_create_instruction in H. destruct (deduce_mode m sam a1 a2) eqn:D; try discriminate.
  - destruct (_ && _); [|discriminate]. injection H as <-. right. split; [right; left; reflexivity|]. apply (mentions_mid "Instruction `").
  - apply QuietProofs.deduce_soft in D. subst e0. injection H as <-. right. split; [left; reflexivity|]. apply deduce_mentions.
Qed.
Definition bare_rest (l : location) (m : mnemonic) (sfx : suffix) (arg1 : expr) (ts : list token) : pres (instr * list token) :=
  let^ e := t_at_end_or_suffix ts in
  if e then t_finish l m sfx SA_dir (Some arg1) None ts
  else
    let^ ts := t_consume l "," "comma or end of line" ts in
    let^ _ := t_confirm_legal_register l ["X"; "Y"; "S"]%char "with direct indexing" ts in
    let^ t := t_front ts in
    if is_char "X" t then
      let ts := tl ts in
      let^ _ := t_confirm_at_end_or_suffix l "after indexed argument" ts in
      t_finish l m sfx SA_dir_x (Some arg1) None ts
    else if is_char "Y" t then
      let ts := tl ts in
      let^ _ := t_confirm_at_end_or_suffix l "after indexed argument" ts in
      t_finish l m sfx SA_dir_y (Some arg1) None ts
    else
      let^ ts := t_consume l "S" "X, Y, or S register" ts in
      let^ _ := t_confirm_at_end_or_suffix l "after stack relative argument" ts in
      t_finish l m sfx SA_stk (Some arg1) None ts.
Lemma local_about_expr : forall l m, local (about l m) (t_parse_expr l).
Proof. intros l m. exact (local_weaken _ _ _ _ (about_names l m) (local_expr l)). Qed.
Lemma local_about_rest : forall l m a, local (about l m) (t_rest l a).
Proof. intros l m a. exact (local_weaken _ _ _ _ (about_names l m) (local_rest l a)). Qed.
Lemma near_down : forall A Q t (g : list token -> pres (A * list token)), local Q (fun ts => g (t :: ts)) -> near_at Q t g.
Proof. intros A Q t g L. apply (near_ext _ _ _ (fun ts => (fun ts => g (t :: ts)) (tl ts))); [reflexivity|]. exact (near_tl _ _ _ (fun ts => g (t :: ts)) L). Qed.
Ltac down := match goal with |- near_at _ _ ?g => match g with context [@tl] => apply near_down; cbv beta; cbn [tl] end end.
Ltac walk := repeat first
  [apply near_finish
  |apply local_about_expr
  |match goal with |- local _ _ => split; [intros ?|exact Logic.I] end
  |apply near_register; [apply about_names|]
  |apply near_confirm_suffix; [apply about_names|intros _]
  |apply near_consume; [apply about_names|]
  |apply near_end_suffix; cbv beta
  |apply near_front; cbv beta
  |apply near_cond; intros _
  |apply near_bind; [apply local_about_expr|intros ?]
  |down].
Lemma local_bare_rest : forall l m sfx a, local (about l m) (bare_rest l m sfx a).
Proof. intros l m sfx a. unfold bare_rest. walk. Qed.
Lemma local_bare : forall l m sfx, local (about l m) (t_bare l m sfx).
Proof. intros l m sfx. apply (local_bind _ _ _ (t_parse_expr l) (bare_rest l m sfx)); [apply local_about_expr|]. intros a. apply local_bare_rest. Qed.
Lemma local_immediate : forall l m sfx, local (about l m) (t_immediate l m sfx).
Proof. intros l m sfx. unfold t_immediate. walk. Qed.
Lemma local_bracket : forall l m sfx, local (about l m) (t_bracket l m sfx).
Proof. intros l m sfx. unfold t_bracket. walk. Qed.

Definition paren_rest_of (l : location) (m : mnemonic) (sfx : suffix) (ts : list token) : pres (instr * list token) :=
  let^ (arg1, ts) := t_parse_expr l ts in
  let^ t := t_front ts in
  if is_char "," t then
    let ts := tl ts in
    let^ _ := t_confirm_legal_register l ["X"; "S"]%char "with indexed indirect mode" ts in
    let^ t := t_front ts in
    if is_char "X" t then
      let^ ts := t_consume l ")" "close parenthesis" (tl ts) in
      let^ _ := t_confirm_at_end_or_suffix l "after indexed indirect argument" ts in
      t_finish l m sfx SA_ind_x (Some arg1) None ts
    else
      let^ ts := t_consume l "S" "X or S register" ts in
      let^ ts := t_consume l ")" "close parenthesis" ts in
      let^ ts := t_consume l "," "comma after stack relative indirect" ts in
      let^ _ := t_confirm_legal_register l ["Y"%char] "with stack relative indirect indexing" ts in
      let^ ts := t_consume l "Y" "register Y" ts in
      let^ _ := t_confirm_at_end_or_suffix l "after stack relative indirect indexed argument" ts in
      t_finish l m sfx SA_stk_y (Some arg1) None ts
  else if is_char ")" t then
    let ts := tl ts in
    let^ e := t_at_end_or_suffix ts in
    if e then t_finish l m sfx SA_ind (Some arg1) None ts
    else
      let^ t := t_front ts in
      if is_char "," t then
        let ts := tl ts in
        let^ _ := t_confirm_legal_register l ["Y"%char] "with indirect indexing" ts in
        let^ ts := t_consume l "Y" "register Y" ts in
        let^ _ := t_confirm_at_end_or_suffix l "after indirect indexed argument" ts in
        t_finish l m sfx SA_ind_y (Some arg1) None ts
      else let^ (a, ts) := t_rest l arg1 ts in bare_rest l m sfx a ts
  else t_bare l m sfx ts.
Lemma paren_same : forall l m sfx t ts, is_char "(" t = true -> t_paren l m sfx (t :: ts) ts = paren_rest_of l m sfx ts.
Proof.
  intros l m sfx t ts P. unfold t_paren, paren_rest_of. destruct (t_parse_expr l ts) as [[arg1 ts1]|e|u|] eqn:E; try reflexivity. cbn [pbind].
  destruct ts1 as [|t1 ts1]; [reflexivity|]. cbn [t_front pbind tl]. destruct (is_char "," t1); [reflexivity|]. destruct (is_char ")" t1) eqn:C; [|reflexivity].
  cbv zeta. destruct ts1 as [|t2 ts2]; [reflexivity|]. change (t_at_end_or_suffix (t2 :: ts2)) with (POk (tok_at_end_or_suffix t2)). cbn [t_front pbind tl]. destruct (tok_at_end_or_suffix t2); [reflexivity|]. destruct (is_char "," t2); [reflexivity|].
  unfold t_bare. rewrite (paren_rest _ _ _ _ _ _ P E C). reflexivity.
Qed.
Lemma local_paren : forall l m sfx, local (about l m) (paren_rest_of l m sfx).
Proof.
  intros l m sfx. unfold paren_rest_of.
  repeat first [apply local_bare|progress walk|match goal with |- near_at _ _ (t_bare _ _ _) => apply local_bare end
    |match goal with |- near_at _ _ (fun ts => pbind (t_rest _ _ ts) _) => apply near_bind; [apply local_about_rest|intros ?; apply local_bare_rest] end].
Qed.
Lemma local_operand : forall l m sfx, local (about l m) (t_operand l m sfx).
Proof.
  intros l m sfx. split; [|exact Logic.I]. intros t. unfold t_operand. apply near_end_suffix; cbv beta. apply near_cond; intros _; [apply near_finish|].
  apply near_register; [apply about_names|]. apply near_front; cbv beta. apply near_cond; intros _; [walk|]. apply near_cond; intros _; [apply (near_tl _ _ _ (t_immediate l m sfx)), local_immediate|].
  apply near_cond; intros _; [apply (near_tl _ _ _ (t_bracket l m sfx)), local_bracket|]. apply near_cond; intros C; [|apply local_bare].
  apply (near_ext _ _ _ (fun ts => paren_rest_of l m sfx (tl ts))); [intros ts; cbn [tl]; apply paren_same; exact C|]. apply near_tl, local_paren.
Qed.

(** ** Where an instruction ends. *)
Definition headed (ts : list token) : Prop := match ts with t :: _ => tok_at_end_or_suffix t = true | [] => False end.
Definition ends_ok {A} (r : pres (A * list token)) : Prop := forall a rest, r = POk (a, rest) -> headed rest.
Lemma ends_bind : forall A B (r : pres A) (k : A -> pres (B * list token)), (forall a, r = POk a -> ends_ok (k a)) -> ends_ok (pbind r k).
Proof. intros A B [a|e|u|] k H b rest X; try discriminate. exact (H a eq_refl b rest X). Qed.
Lemma ends_finish : forall l m sfx sam a1 a2 ts, headed ts -> ends_ok (t_finish l m sfx sam a1 a2 ts).
Proof. intros l m sfx sam a1 a2 ts H i rest X. unfold t_finish in X. destruct (t_create_instruction l m sfx sam a1 a2); try discriminate. injection X as <- <-. exact H. Qed.
Lemma confirm_headed : forall l m ts u, t_confirm_at_end_or_suffix l m ts = POk u -> headed ts.
Proof. intros l m [|t ts] u H; [discriminate|]. unfold t_confirm_at_end_or_suffix in H. cbn [t_front pbind] in H. cbn [headed]. destruct (tok_at_end_or_suffix t); [reflexivity|discriminate]. Qed.
Lemma end_headed : forall ts, t_at_end_or_suffix ts = POk true -> headed ts.
Proof. intros [|t ts] H; [discriminate|]. injection H as H. exact H. Qed.
Ltac ends := repeat match goal with
  | H : t_confirm_at_end_or_suffix _ _ ?ts = POk _ |- ends_ok (t_finish _ _ _ _ _ _ ?ts) => exact (ends_finish _ _ _ _ _ _ _ (confirm_headed _ _ _ _ H))
  | H : t_at_end_or_suffix ?ts = POk true |- ends_ok (t_finish _ _ _ _ _ _ ?ts) => exact (ends_finish _ _ _ _ _ _ _ (end_headed _ H))
  | |- ends_ok (pbind _ _) => apply ends_bind; intros ? ?
  | |- ends_ok (if ?b then _ else _) => destruct b
  | |- ends_ok (match ?p with (_, _) => _ end) => destruct p
  | |- ends_ok (let _ := _ in _) => cbv zeta
  end.
Lemma ends_bare : forall l m sfx ts, ends_ok (t_bare l m sfx ts).
Proof. intros l m sfx ts. unfold t_bare. ends. Qed.
Lemma ends_core : forall l m ts, ends_ok (t_parse_instruction_core l (TMnem m :: ts)).
Proof.
  intros l m ts. cbn [t_parse_instruction_core]. apply ends_bind. intros t _. unfold t_operand, t_immediate, t_bracket, t_paren.
  assert (K : forall sfx ts, ends_ok (t_operand l m sfx ts)) by (intros sfx ts0; unfold t_operand, t_immediate, t_bracket, t_paren; ends; apply ends_bare).
  destruct t; apply K.
Qed.

(** ** Whole instructions. *)
Definition refuses (l : location) (m : mnemonic) (e : rerror) (t : token) : Prop :=
  names l e t \/ (In (re_kind e) [E_no_mode; E_suffix; E_convention] /\ mentions (re_text e) (mnem_to_string m)).
Lemma about_refuses : forall l m e t, about l m e t -> refuses l m e t.
Proof. intros l m e t [H|[H K]]; [left; exact H|right; split; [|exact K]]. destruct H as [H|[H|[]]]; [left|right; left]; exact H. Qed.
Lemma names_refuses : forall l m e t, names l e t -> refuses l m e t.
Proof. intros l m e t H. left. exact H. Qed.
Lemma local_core : forall l m, local (about l m) (fun ts => t_parse_instruction_core l (TMnem m :: ts)).
Proof.
  intros l m. cbn [t_parse_instruction_core]. split; [|exact Logic.I]. intros t. apply near_front. cbv beta. destruct t; try apply local_operand.
  apply (near_tl _ _ _ (t_operand l m s)), local_operand.
Qed.
Lemma local_convention : forall A (Q : rerror -> token -> Prop) l (fin : retconv -> pres A), (forall e t, names l e t -> Q e t) -> (forall rc e t, fin rc = PErr e -> Q e t) ->
  local Q (fun ts => let^ (rc, ts1) := t_return_convention l ts in let^ a := fin rc in POk (a, ts1)).
Proof.
  intros A Q l fin W F.
  assert (TK : forall rc t, near_at Q t (fun ts => let^ a := fin rc in POk (a, tl ts))).
  { intros rc t. apply (near_look _ _ _ _ (fun _ => fin rc) (fun a ts => POk (a, tl ts)) (fin rc)); [reflexivity|exact (fun e => F rc e t)|intros a _; apply near_take]. }
  split; [|exact Logic.I]. intros t. unfold t_return_convention. destruct (is_punct P_noreturn t) eqn:NR.
  - apply (near_ext _ _ _ (fun ts => let^ a := fin RC_noreturn in POk (a, tl ts))); [|apply TK]. intros ts. cbn [t_front pbind]. rewrite NR. reflexivity.
  - destruct (is_punct P_yields t) eqn:Y.
    + apply near_down. apply (local_weaken _ Q); [auto|].
      assert (L : local Q (fun ts => let^ (f, ts') := t_mode l ts in let^ a := fin (RC_yields f) in POk (a, ts'))).
      { split; [|exact Logic.I]. intros t1. destruct t1 as [s|v ty|m|s|d|p|]; [destruct (flags_from_name s) as [f|] eqn:FN|..].
        - apply (near_ext _ _ _ (fun ts => let^ a := fin (RC_yields f) in POk (a, tl ts))); [|apply TK]. intros ts. cbn [t_mode]. rewrite FN. reflexivity.
        - apply (near_ext _ _ _ (fun _ => err_at E_parse (String """" (s ++ String """" " does not name a flag state")) l)); [intros ts; cbn [t_mode]; rewrite FN; reflexivity|].
          apply near_fail, W. split; [reflexivity|]. split; [reflexivity|]. left. split; [discriminate|]. exists (String """" ""), (String """" " does not name a flag state"). reflexivity.
        - apply (near_ext _ _ _ (fun _ => err_at E_parse ("Expected mode name, found " ++ token_to_string (TLit v ty)) l)); [reflexivity|]. apply near_fail, W, (names_found0 l "Expected mode name, found ").
        - apply (near_ext _ _ _ (fun _ => err_at E_parse ("Expected mode name, found " ++ token_to_string (TMnem m)) l)); [reflexivity|]. apply near_fail, W, (names_found0 l "Expected mode name, found ").
        - apply (near_ext _ _ _ (fun _ => err_at E_parse ("Expected mode name, found " ++ token_to_string (TSuffix s)) l)); [reflexivity|]. apply near_fail, W, (names_found0 l "Expected mode name, found ").
        - apply (near_ext _ _ _ (fun _ => err_at E_parse ("Expected mode name, found " ++ token_to_string (TDir d)) l)); [reflexivity|]. apply near_fail, W, (names_found0 l "Expected mode name, found ").
        - apply (near_ext _ _ _ (fun _ => err_at E_parse ("Expected mode name, found " ++ token_to_string (TPunct p)) l)); [reflexivity|]. apply near_fail, W, (names_found0 l "Expected mode name, found ").
        - apply (near_ext _ _ _ (fun _ => err_at E_parse ("Expected mode name, found " ++ token_to_string TEol) l)); [reflexivity|]. apply near_fail, W, (names_found0 l "Expected mode name, found "). }
      split; [|cbn [t_front pbind tl]; rewrite NR, Y; exact Logic.I]. intros t1. apply (near_ext _ _ _ (fun ts => let^ (f, ts') := t_mode l ts in let^ a := fin (RC_yields f) in POk (a, ts'))); [|apply L].
      intros ts. cbn [t_front pbind tl]. rewrite NR, Y. destruct (t_mode l (t1 :: ts)) as [[f ts1]|e|u|]; reflexivity.
    + apply (near_ext _ _ _ (fun ts => let^ a := fin RC_default in POk (a, ts))).
      * intros ts. cbn [t_front pbind]. rewrite NR, Y. reflexivity.
      * apply (near_look _ _ _ _ (fun _ => fin RC_default) (fun a ts => POk (a, ts)) (fin RC_default)); [reflexivity|exact (fun e => F RC_default e t)|intros a _; apply near_ret].
Qed.
Definition conventional (i : instr) (rc : retconv) : pres instr :=
  if negb (rc_is_default rc) && negb (mnem_eqb (i_mnem i) M_jsl) && negb (mnem_eqb (i_mnem i) M_jsr)
  then PErr (RError E_convention ("return calling convention not supported on instruction " ++ mnem_to_string (i_mnem i)) no_location)
  else POk (Instr (i_mnem i) (i_suffix i) (i_mode i) (i_arg1 i) (i_arg2 i) rc).
Lemma core_mnemonic : forall l m ts i rest, t_parse_instruction_core l (TMnem m :: ts) = POk (i, rest) -> i_mnem i = m.
Proof. intros l m ts i rest H. pose proof (bare_core l (TMnem m :: ts)) as B. rewrite H in B. cbn [bare] in B. pose proof (core_fine m ts) as F. rewrite <- B in F. exact (proj1 F). Qed.
Lemma local_ext : forall A Q (g h : list token -> pres (A * list token)), (forall ts, h ts = g ts) -> local Q g -> local Q h.
Proof. intros A Q g h E [L S]. split; [|rewrite E; exact S]. intros t. apply (near_ext _ _ _ g); [intros ts; apply E|apply L]. Qed.
Lemma local_instruction : forall l m, local (refuses l m) (fun ts => t_parse_instruction l (TMnem m :: ts)).
Proof.
  intros l m. set (with_m := fun ts => let^ (i, ts1) := t_parse_instruction_core l (TMnem m :: ts) in (let^ (rc, ts2) := t_return_convention l ts1 in let^ a := conventional (Instr m (i_suffix i) (i_mode i) (i_arg1 i) (i_arg2 i) RC_default) rc in POk (a, ts2))).
  apply (local_ext _ _ with_m).
  - intros ts. unfold t_parse_instruction, with_m. destruct (t_parse_instruction_core l (TMnem m :: ts)) as [[i ts1]|e|u|] eqn:C; try reflexivity. cbn [pbind].
    pose proof (core_mnemonic _ _ _ _ _ C) as M. destruct (t_return_convention l ts1) as [[rc ts2]|e|u|]; try reflexivity. cbn [pbind]. unfold conventional. cbn [i_mnem i_suffix i_mode i_arg1 i_arg2]. rewrite M.
    destruct (_ && _); reflexivity.
  - unfold with_m. apply (local_bind _ _ _ (fun ts => t_parse_instruction_core l (TMnem m :: ts)) (fun i ts1 => let^ (rc, ts2) := t_return_convention l ts1 in let^ a := conventional (Instr m (i_suffix i) (i_mode i) (i_arg1 i) (i_arg2 i) RC_default) rc in POk (a, ts2))).
    + exact (local_weaken _ _ _ _ (about_refuses l m) (local_core l m)).
    + intros i. apply (local_convention _ _ l (conventional (Instr m (i_suffix i) (i_mode i) (i_arg1 i) (i_arg2 i) RC_default))); [apply names_refuses|].
      intros rc e t H. unfold conventional in H. destruct (_ && _); [|discriminate]. injection H as <-. right. split; [right; right; left; reflexivity|]. cbn [re_text i_mnem].
      apply (mentions_add _ _ "return calling convention not supported on instruction "), mentions_self.
Qed.

(** ** Directives. *)
Lemma expr_loop_rest : forall l f a ts e rest, t_expr_loop l f a ts = POk (e, rest) -> rest <> [].
Proof.
  intros l f. induction f as [|f IH]; intros a ts e rest H; [discriminate|]. destruct ts as [|t ts]; [discriminate|]. rewrite expr_loop_S in H.
  destruct (tok_at_end t); [injection H as _ <-; discriminate|]. destruct (addop t) as [op|]; [|injection H as _ <-; discriminate].
  destruct (t_term l f ts) as [[r ts1]|e1|u|]; try discriminate. exact (IH _ _ _ _ H).
Qed.
Lemma expr_rest : forall l ts e rest, t_parse_expr l ts = POk (e, rest) -> rest <> [].
Proof.
  intros l ts e rest H. unfold t_parse_expr in H. replace (6 * List.length ts + 6)%nat with (S (6 * List.length ts + 5)) in H by lia. cbn [t_expr] in H.
  match type of H with context [pbind ?r _] => destruct r as [[e1 ts1]|e1|u1|]; try discriminate end. exact (expr_loop_rest _ _ _ _ _ _ H).
Qed.

Lemma expr_fuel : forall l ts, t_parse_expr l ts <> PFuel.
Proof. intros l ts. apply enough_fuel. lia. Qed.
Lemma expr_shorter : forall l ts e rest, t_parse_expr l ts = POk (e, rest) -> (List.length rest < List.length ts)%nat.
Proof. intros l ts e rest H. exact (shorter _ _ _ _ _ (bare_parse_expr l ts) (parse_expr_fine ts) H). Qed.
Lemma consume_rest : forall l c m ts ts', t_consume l c m ts = POk ts' -> ts' = tl ts.
Proof. intros l c m [|t ts] ts' H; [discriminate|]. unfold t_consume in H. cbn [t_front pbind] in H. destruct (is_char c t); [injection H as <-; reflexivity|discriminate]. Qed.
Lemma consume_fuel : forall l c m ts, t_consume l c m ts <> PFuel.
Proof. intros l c m [|t ts]; [discriminate|]. unfold t_consume. cbn [t_front pbind]. destruct (is_char c t); discriminate. Qed.
Lemma tl_len : forall (ts : list token), (List.length (tl ts) <= List.length ts)%nat.
Proof. intros [|t ts]; cbn; lia. Qed.
Lemma list_fuel : forall l f acc ts, (List.length ts < f)%nat -> t_list l f acc ts <> PFuel.
Proof.
  intros l. induction f as [|f IH]; intros acc ts L; [lia|]. cbn [t_list]. apply bind_fuel; [apply expr_fuel|]. intros [e ts1] H. pose proof (expr_shorter _ _ _ _ H) as H1.
  apply bind_fuel; [destruct ts1; discriminate|]. intros [] _; [discriminate|]. apply bind_fuel; [apply consume_fuel|]. intros ts2 C. apply IH. rewrite (consume_rest _ _ _ _ _ C). pose proof (tl_len ts1). lia.
Qed.
Lemma list_more : forall l f acc ts, t_list l f acc ts <> PFuel -> t_list l (S f) acc ts = t_list l f acc ts.
Proof.
  intros l. induction f as [|f IH]; intros acc ts N; [exfalso; apply N; reflexivity|].
  change (t_list l (S (S f)) acc ts) with (let^ (e, ts) := t_parse_expr l ts in let acc := (acc ++ [e])%list in let^ b := t_at_end ts in if b then POk (acc, ts) else let^ ts := t_consume l "," "comma or end of line" ts in t_list l (S f) acc ts).
  cbn [t_list] in N |- *. apply more_bind; [exact N|reflexivity|]. intros [e ts1] _ N1. cbv zeta in N1 |- *. apply more_bind; [exact N1|reflexivity|]. intros [] _ N2; [reflexivity|].
  apply more_bind; [exact N2|reflexivity|]. intros ts2 _ N3. apply IH. exact N3.
Qed.
Lemma local_list : forall l acc, local (names l) (fun ts => t_list l (S (List.length ts)) acc ts).
Proof.
  intros l acc. apply (local_enough _ _ (fun f => t_list l f acc) (fun ts => S (List.length ts))); [intros f ts; apply list_more|intros ts; apply list_fuel; lia|].
  intros f. revert acc. induction f as [|f IH]; intros acc; [apply local_fuel; reflexivity|]. cbn [t_list].
  apply (local_bind _ _ _ (t_parse_expr l) (fun e ts => let acc := (acc ++ [e])%list in let^ b := t_at_end ts in if b then POk (acc, ts) else let^ ts := t_consume l "," "comma or end of line" ts in t_list l f acc ts)); [apply local_expr|].
  intros e. split; [|exact Logic.I]. intros t. cbv zeta. apply near_end. cbv beta. apply near_cond; intros _; [apply near_ret|]. apply near_consume; [auto|]. apply IH.
Qed.
Definition objects (l : location) (d : directive_name) (e : rerror) (t : token) : Prop :=
  names l e t \/ (re_kind e = E_parse /\ mentions (re_text e) (dir_to_string d)).
Lemma names_objects : forall l d e t, names l e t -> objects l d e t.
Proof. intros l d e t H. left. exact H. Qed.
Lemma local_conv : forall l, local (names l) (t_return_convention l).
Proof.
  intros l. apply (local_ext _ _ (fun ts => let^ (rc, ts1) := t_return_convention l ts in let^ a := POk rc in POk (a, ts1))).
  - intros ts. destruct (t_return_convention l ts) as [[rc ts1]|e|u|]; reflexivity.
  - apply (local_convention _ _ l (fun rc => POk rc)); [auto|]. discriminate.
Qed.
Lemma local_mode_part : forall l d a, local (names l) (t_mode_part l d a).
Proof.
  intros l d a. unfold t_mode_part.
  assert (K : forall f, local (names l) (fun ts => let^ (rc, ts) := t_return_convention l ts in let^ _ := t_confirm_at_end l "after flag state" ts in POk (Directive d a f rc [], ts))).
  { intros f. apply (local_bind _ _ _ (t_return_convention l) (fun rc ts => let^ _ := t_confirm_at_end l "after flag state" ts in POk (Directive d a f rc [], ts))); [apply local_conv|].
    intros rc. split; [|exact Logic.I]. intros t. apply near_confirm; [auto|]. intros _. apply near_ret. }
  apply (local_bind _ _ _ (t_mode l) (fun f ts => let^ _ := match directive_type_by_name d with DT_flag_arg => t_confirm_at_end l "after flag state" ts | _ => POk tt end in
    let^ (rc, ts) := t_return_convention l ts in let^ _ := t_confirm_at_end l "after flag state" ts in POk (Directive d a f rc [], ts))); [apply local_mode|].
  intros f. destruct (directive_type_by_name d); try apply K. split; [|exact Logic.I]. intros t. apply near_confirm; [auto|]. intros _. apply K.
Qed.
Lemma local_front : forall A (Q : rerror -> token -> Prop) l (k : expr -> list token -> pres (A * list token)), (forall e t, names l e t -> Q e t) -> (forall a t, near_at Q t (k a)) ->
  local Q (fun ts => let^ (a, ts) := t_parse_expr l ts in k a ts).
Proof.
  intros A Q l k W K. apply (local_ext _ _ (fun ts => let^ (a, ts) := t_parse_expr l ts in (let^ _ := t_front ts in k a ts))).
  - intros ts. destruct (t_parse_expr l ts) as [[a ts1]|e|u|] eqn:E; try reflexivity. pose proof (expr_rest _ _ _ _ E). destruct ts1; [congruence|reflexivity].
  - apply (local_bind _ _ _ (t_parse_expr l) (fun a ts => let^ _ := t_front ts in k a ts)); [exact (local_weaken _ _ _ _ W (local_expr l))|].
    intros a. split; [|exact Logic.I]. intros t. apply (near_front _ _ _ (fun _ => k a)). apply K.
Qed.
Lemma local_map : forall A B Q (g : list token -> pres (A * list token)) (k : A -> B), local Q g -> local Q (fun ts => let^ (a, ts) := g ts in POk (k a, ts)).
Proof.
  intros A B Q g k [L S]. split; [|destruct (g []) as [[a ts]|e|u|]; exact S]. intros t ts. destruct (L t ts) as [L1 L2]. split.
  - intros b rest H. destruct (g (t :: ts)) as [[a r]|e|u|]; try discriminate. injection H as <- <-. destruct (L1 a r eq_refl) as (pre & P & K). exists pre. split; [exact P|]. intros rest' R. rewrite (K rest' R). reflexivity.
  - intros e H. destruct (g (t :: ts)) as [[a r]|e1|u|]; try discriminate. injection H as <-. destruct (L2 e1 eq_refl) as (pre & t' & post & P & QQ & K). exists pre, t', post. split; [exact P|]. split; [exact QQ|]. intros post'. rewrite K. reflexivity.
Qed.
Lemma local_directive : forall l d, local (objects l d) (fun ts => t_parse_directive l (TDir d :: ts)).
Proof.
  intros l d. cbn [t_parse_directive]. pose proof (names_objects l d) as W.
  assert (S1 : local (objects l d) (fun ts => let^ (arg1, ts) := t_parse_expr l ts in
          if match directive_type_by_name d with DT_constant_arg => requires_lookup arg1 | _ => false end
          then err_at E_parse (dir_to_string d ++ " directive requires a constant value argument") l
          else if match directive_type_by_name d with DT_name_arg => match simple_identifier arg1 with None => true | Some _ => false end | _ => false end
          then err_at E_parse (dir_to_string d ++ " directive requires a simple name argument") l
          else let^ _ := t_confirm_at_end l "after directive argument" ts in POk (Directive d (Some arg1) default_flags RC_default [], ts))).
  { apply (local_front _ _ l (fun arg1 ts => if match directive_type_by_name d with DT_constant_arg => requires_lookup arg1 | _ => false end
          then err_at E_parse (dir_to_string d ++ " directive requires a constant value argument") l
          else if match directive_type_by_name d with DT_name_arg => match simple_identifier arg1 with None => true | Some _ => false end | _ => false end
          then err_at E_parse (dir_to_string d ++ " directive requires a simple name argument") l
          else let^ _ := t_confirm_at_end l "after directive argument" ts in POk (Directive d (Some arg1) default_flags RC_default [], ts))); [exact W|].
    intros a t. apply near_cond; intros _; [apply near_fail; right; split; [reflexivity|apply mentions_front]|].
    apply near_cond; intros _; [apply near_fail; right; split; [reflexivity|apply mentions_front]|]. apply near_confirm; [exact W|]. intros _. apply near_ret. }
  cbv zeta. destruct (directive_type_by_name d) eqn:DT; try exact S1.
  - split; [|exact Logic.I]. intros t. apply near_confirm; [exact W|]. intros _. apply near_ret.
  - apply (local_weaken _ _ _ _ W). apply local_mode_part.
  - apply (local_weaken _ _ _ _ W). apply local_mode_part.
  - apply (local_weaken _ _ _ _ W). apply (local_map _ _ _ (fun ts => t_list l (S (List.length ts)) [] ts)), local_list.
  - apply (local_weaken _ _ _ _ W). apply (local_bind _ _ _ (t_parse_expr l) (fun a => t_mode_part l d (Some a))); [apply local_expr|]. intros a. apply local_mode_part.
Qed.

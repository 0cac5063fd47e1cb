(** Properties of the parser. *)
From Verif Require Import Base ModelNumeric ModelMnemonic ModelExpr ModelAMode ModelOpcode
  ModelState ModelInstr ModelStatement ModelToken ModelParse.
From Verif Require Import BaseProofs SpecText.
Local Open Scope string_scope.
Local Open Scope Z_scope.

(** ** Consumption: what a function leaves is a proper suffix reached over plain tokens. *)
Definition plain (t : token) : bool :=
  match t with
  | TMnem _ | TDir _ | TEol => false
  | TPunct p => negb (p =? code ":") && negb (p =? code "{") && negb (p =? code "}")
  | _ => true
  end.
Definition over (ts ts' : list token) : Prop :=
  exists pre, ts = (pre ++ ts')%list /\ forallb plain pre = true.
Definition over1 (ts ts' : list token) : Prop :=
  exists pre, ts = (pre ++ ts')%list /\ forallb plain pre = true /\ pre <> [].

Lemma over_refl : forall ts, over ts ts.
Proof. intros ts. exists []. split; reflexivity. Qed.
Lemma over_trans : forall a b c, over a b -> over b c -> over a c.
Proof.
  intros a b c (p & -> & Hp) (q & -> & Hq). exists (p ++ q)%list. rewrite app_assoc, forallb_app, Hp, Hq.
  split; reflexivity.
Qed.
Lemma over1_over : forall a b, over1 a b -> over a b.
Proof. intros a b (p & E & Hp & _). exists p. split; assumption. Qed.
Lemma over1_trans : forall a b c, over1 a b -> over b c -> over1 a c.
Proof.
  intros a b c (p & -> & Hp & Hn) (q & -> & Hq). exists (p ++ q)%list.
  rewrite app_assoc, forallb_app, Hp, Hq. split; [reflexivity|]. split; [reflexivity|].
  destruct p; [congruence|discriminate].
Qed.
Lemma over1_trans' : forall a b c, over a b -> over1 b c -> over1 a c.
Proof.
  intros a b c (p & -> & Hp) (q & -> & Hq & Hn). exists (p ++ q)%list.
  rewrite app_assoc, forallb_app, Hp, Hq. split; [reflexivity|]. split; [reflexivity|].
  destruct p; [exact Hn|discriminate].
Qed.
Lemma over1_cons : forall t ts, plain t = true -> over1 (t :: ts) ts.
Proof. intros t ts H. exists [t]. cbn. rewrite H. repeat split. discriminate. Qed.
Lemma over_len : forall a b, over a b -> (List.length b <= List.length a)%nat.
Proof. intros a b (p & -> & _). rewrite app_length. lia. Qed.
Lemma over1_len : forall a b, over1 a b -> (List.length b < List.length a)%nat.
Proof. intros a b (p & -> & _ & H). rewrite app_length. destruct p; [congruence|]. cbn. lia. Qed.

Lemma char_plain : forall c t, is_char c t = true -> c <> ":"%char -> c <> "{"%char -> c <> "}"%char ->
  plain t = true.
Proof.
  intros c t H H1 H2 H3. unfold is_char, is_punct in H. destruct t; try discriminate H.
  apply Z.eqb_eq in H. subst p. cbn.
  assert (forall d, c <> d -> (code c =? code d) = false) as K.
  { intros d Hd. apply Z.eqb_neq. intros E. apply Hd. unfold code in E. apply N2Z.inj in E.
    rewrite <- (ascii_N_embedding c), <- (ascii_N_embedding d), E. reflexivity. }
  change 58 with (code ":"). change 123 with (code "{"). change 125 with (code "}").
  rewrite !K by assumption. reflexivity.
Qed.
Lemma punct_plain : forall p t, is_punct p t = true -> 256 < p -> plain t = true.
Proof.
  intros p t H Hp. unfold is_punct in H. destruct t; try discriminate H. apply Z.eqb_eq in H. subst. cbn.
  destruct (Z.eqb_spec p 58); [lia|]. destruct (Z.eqb_spec p 123); [lia|]. destruct (Z.eqb_spec p 125); [lia|].
  reflexivity.
Qed.
Lemma addop_plain : forall t op, addop t = Some op -> plain t = true.
Proof.
  intros t op. unfold addop. destruct (is_char "+" t) eqn:E; [intros _; eapply char_plain; [exact E|discriminate..]|].
  destruct (is_char "-" t) eqn:E2; [intros _; eapply char_plain; [exact E2|discriminate..]|discriminate].
Qed.
Lemma mulop_plain : forall t op, mulop t = Some op -> plain t = true.
Proof.
  intros t op. unfold mulop. destruct (is_char "*" t) eqn:E; [intros _; eapply char_plain; [exact E|discriminate..]|].
  destruct (is_char "/" t) eqn:E2; [intros _; eapply char_plain; [exact E2|discriminate..]|discriminate].
Qed.
Lemma unaryop_plain : forall t op, unaryop t = Some op -> plain t = true.
Proof.
  intros t op. unfold unaryop. destruct (is_char "-" t) eqn:E; [intros _; eapply char_plain; [exact E|discriminate..]|].
  destruct (is_char "<" t) eqn:E2; [intros _; eapply char_plain; [exact E2|discriminate..]|].
  destruct (is_char ">" t) eqn:E3; [intros _; eapply char_plain; [exact E3|discriminate..]|].
  destruct (is_char "^" t) eqn:E4; [intros _; eapply char_plain; [exact E4|discriminate..]|discriminate].
Qed.

(** ** Outcomes of parsing functions on a line. *)
Definition fine {A} (R : list token -> list token -> Prop) (ts : list token)
  (r : res (A * list token)) : Prop :=
  match r with Ok (_, ts') => R ts ts' | Err _ => True | UB _ | OutOfFuel => ~ ended ts end.

Lemma ended_over : forall ts ts', over ts ts' -> ended ts -> ended ts'.
Proof.
  intros ts ts' (p & -> & Hp). revert Hp. induction p as [|a p IH]; intros Hp H; [exact H|].
  cbn in Hp. apply andb_prop in Hp as [Ha Hp]. apply IH; [exact Hp|]. destruct H as (body & E & N).
  destruct body as [|b body].
  - cbn in E. injection E as -> _. discriminate Ha.
  - injection E as <- E. exists body. split; [exact E|]. intros X. apply N. right. exact X.
Qed.
Lemma ended_nil : ~ ended [].
Proof. intros (b & E & _). destruct b; discriminate E. Qed.
Lemma ended_tail : forall t ts, ended (t :: ts) -> t <> TEol -> ended ts.
Proof.
  intros t ts (b & E & N) Ht. destruct b as [|x b]; [injection E as -> _; congruence|].
  injection E as <- E. exists b. split; [exact E|]. intros X. apply N. right. exact X.
Qed.
Lemma ended_eol : forall ts, ended (TEol :: ts) -> ts = [].
Proof.
  intros ts (b & E & N). destruct b as [|x b]; [injection E as E; exact E|].
  injection E as <- _. exfalso. apply N. left. reflexivity.
Qed.

Lemma fine_bind : forall A B (R S T : list token -> list token -> Prop) ts (r : res (A * list token))
    (k : A * list token -> res (B * list token)),
  fine R ts r -> (forall a b, R a b -> over a b) ->
  (forall a ts', r = Ok (a, ts') -> R ts ts' -> fine S ts' (k (a, ts'))) ->
  (forall a b c, R a b -> S b c -> T a c) -> fine T ts (bind r k).
Proof.
  intros A B R S T ts r k H RO HK HT. destruct r as [[a ts']|e|u|]; cbn in *; try exact H.
  specialize (HK a ts' eq_refl H). destruct (k (a, ts')) as [[b ts2]|e|u|]; cbn in *.
  - eapply HT; eassumption.
  - exact I.
  - intros E. apply HK. eapply ended_over; [apply RO; exact H|exact E].
  - intros E. apply HK. eapply ended_over; [apply RO; exact H|exact E].
Qed.
Lemma fine_weaken : forall A ts (r : res (A * list token)), fine over1 ts r -> fine over ts r.
Proof. intros A ts [[a t]|e|u|] H; cbn in *; try exact H. apply over1_over. exact H. Qed.
Lemma fine_step : forall A (R : list token -> list token -> Prop) t ts (r : res (A * list token)),
  plain t = true -> fine over ts r -> fine over1 (t :: ts) r.
Proof.
  intros A R t ts [[a t']|e|u|] H; cbn.
  - intros K. eapply over1_trans; [apply over1_cons; exact H|exact K].
  - intros _. exact I.
  - intros K E. apply K. eapply ended_over; [apply over1_over, over1_cons; exact H|exact E].
  - intros K E. apply K. eapply ended_over; [apply over1_over, over1_cons; exact H|exact E].
Qed.

Lemma p_ident_fine : forall long ts r, p_ident long ts = Some r -> fine over1 ts r.
Proof.
  intros long [|t ts] r H; [injection H as <-; exact ended_nil|].
  destruct t as [s| | | | |p|]; try discriminate H.
  - cbn in H. injection H as <-. destruct ts as [|t1 ts2].
    + intros E. apply ended_tail in E; [|discriminate]. exact (ended_nil E).
    + destruct (is_punct P_scope t1) eqn:E1; [|apply over1_cons; reflexivity].
      assert (plain t1 = true) as P1 by (eapply punct_plain; [exact E1|reflexivity]).
      apply (fine_step _ over1); [reflexivity|]. apply fine_weaken.
      apply (fine_step _ over1); [exact P1|].
      destruct ts2 as [|[s2| | | | | |] ts3]; try exact I; [exact ended_nil|].
      apply over1_over, over1_cons. reflexivity.
  - cbn in H. destruct (is_punct P_scope (TPunct p)) eqn:E1; cbn in E1; rewrite E1 in H; [|discriminate H].
    injection H as <-. apply (fine_step _ over1); [eapply punct_plain; [exact E1|reflexivity]|].
    destruct ts as [|[s2| | | | | |] ts3]; try exact I; [exact ended_nil|].
    apply over1_over, over1_cons. reflexivity.
Qed.

Lemma consume_fine : forall c ts, c <> ":"%char -> c <> "{"%char -> c <> "}"%char ->
  match consume c ts with
  | Ok ts' => over1 ts ts' | Err _ => True | UB _ => ~ ended ts | OutOfFuel => False end.
Proof.
  intros c [|t ts] H1 H2 H3; cbn; [exact ended_nil|].
  destruct (is_char c t) eqn:E; [|exact I]. apply over1_cons. eapply char_plain; eassumption.
Qed.
Lemma fine_consume : forall B c ts (k : list token -> res (B * list token)),
  c <> ":"%char -> c <> "{"%char -> c <> "}"%char ->
  (forall ts', consume c ts = Ok ts' -> fine over ts' (k ts')) -> fine over1 ts (bind (consume c ts) k).
Proof.
  intros B c ts k H1 H2 H3 K. pose proof (consume_fine c ts H1 H2 H3) as F.
  destruct (consume c ts) as [ts'|e|u|]; cbn in *; try exact I; try exact F; [|contradiction].
  specialize (K ts' eq_refl). destruct (k ts') as [[b ts2]|e|u|]; cbn in *; try exact I.
  - eapply over1_trans; eassumption.
  - intros E. apply K. eapply ended_over; [apply over1_over; exact F|exact E].
  - intros E. apply K. eapply ended_over; [apply over1_over; exact F|exact E].
Qed.

Lemma exprs_fine : forall f,
  (forall ts, (6 * List.length ts + 4 <= f)%nat -> fine over1 ts (p_expr f ts)) /\
  (forall acc ts, (6 * List.length ts + 1 <= f)%nat -> fine over ts (p_expr_loop f acc ts)) /\
  (forall ts, (6 * List.length ts + 3 <= f)%nat -> fine over1 ts (p_term f ts)) /\
  (forall acc ts, (6 * List.length ts + 1 <= f)%nat -> fine over ts (p_term_loop f acc ts)) /\
  (forall ts, (6 * List.length ts + 2 <= f)%nat -> fine over1 ts (p_factor f ts)) /\
  (forall ts, (6 * List.length ts + 1 <= f)%nat -> fine over1 ts (p_comp f ts)).
Proof.
  induction f as [|f (IE & IEL & IT & ITL & IF & IC)].
  { repeat split; intros; exfalso; lia. }
  repeat apply conj.
  - intros ts H. cbn [p_expr].
    eapply fine_bind with (R := over1) (S := over); [apply IT; lia|exact over1_over| |exact over1_trans].
    intros a ts' _ R. apply IEL. apply over1_len in R. lia.
  - intros acc [|t ts] H; cbn [p_expr_loop]; [exact ended_nil|].
    destruct (tok_at_end t); [apply over_refl|]. destruct (addop t) as [op|] eqn:E; [|apply over_refl].
    apply fine_weaken, (fine_step _ over1); [eapply addop_plain; exact E|]. apply fine_weaken. cbn in H.
    eapply fine_bind with (R := over1) (S := over); [apply IT; lia|exact over1_over| |exact over1_trans].
    intros a ts' _ R. apply IEL. apply over1_len in R. lia.
  - intros ts H. cbn [p_term].
    eapply fine_bind with (R := over1) (S := over); [apply IF; lia|exact over1_over| |exact over1_trans].
    intros a ts' _ R. apply ITL. apply over1_len in R. lia.
  - intros acc [|t ts] H; cbn [p_term_loop]; [exact ended_nil|].
    destruct (tok_at_end t); [apply over_refl|]. destruct (mulop t) as [op|] eqn:E; [|apply over_refl].
    apply fine_weaken, (fine_step _ over1); [eapply mulop_plain; exact E|]. apply fine_weaken. cbn in H.
    eapply fine_bind with (R := over1) (S := over); [apply IF; lia|exact over1_over| |exact over1_trans].
    intros a ts' _ R. apply ITL. apply over1_len in R. lia.
  - intros [|t ts] H; cbn [p_factor]; [exact ended_nil|]. cbn in H.
    destruct (unaryop t) as [op|] eqn:E; [|apply IC; cbn; lia].
    apply (fine_step _ over1); [eapply unaryop_plain; exact E|]. apply fine_weaken.
    eapply fine_bind with (R := over1) (S := over); [apply IF; lia|exact over1_over| |exact over1_trans].
    intros a ts' _ R. apply over_refl.
  - intros [|t ts] H; cbn [p_comp]; [exact ended_nil|]. cbn in H.
    destruct t as [s|v ty|m|su|d|p|]; try (apply over1_cons; reflexivity); cbn [is_char is_punct].
    + cbn [p_ident]. eapply (p_ident_fine false). reflexivity.
    + exact I.
    + exact I.
    + exact I.
    + destruct (p =? code "@") eqn:E.
      * apply (fine_step _ over1); [eapply (char_plain "@"); [exact E|discriminate..]|].
        destruct (p_ident true ts) as [r|] eqn:Er; [|exact I].
        apply fine_weaken. eapply p_ident_fine. exact Er.
      * destruct (p_ident false (TPunct p :: ts)) as [r|] eqn:Er; [eapply p_ident_fine; exact Er|].
        destruct (p =? code "(") eqn:E1; [|exact I].
        apply (fine_step _ over1); [eapply (char_plain "("); [exact E1|discriminate..]|].
        apply fine_weaken.
        eapply fine_bind with (R := over1) (S := over); [apply IE; lia|exact over1_over| |exact over1_trans].
        intros a ts' _ R. apply fine_weaken, fine_consume; try discriminate. intros ts2 _. apply over_refl.
    + exact I.
Qed.

Lemma parse_expr_fine : forall ts, fine over1 ts (parse_expr ts).
Proof. intros ts. apply exprs_fine. lia. Qed.

(** ** Fuel does not matter. *)
Lemma fuel_indep : forall f,
  (forall g ts, (6 * List.length ts + 4 <= f)%nat -> (6 * List.length ts + 4 <= g)%nat ->
     p_expr f ts = p_expr g ts) /\
  (forall g acc ts, (6 * List.length ts + 1 <= f)%nat -> (6 * List.length ts + 1 <= g)%nat ->
     p_expr_loop f acc ts = p_expr_loop g acc ts) /\
  (forall g ts, (6 * List.length ts + 3 <= f)%nat -> (6 * List.length ts + 3 <= g)%nat ->
     p_term f ts = p_term g ts) /\
  (forall g acc ts, (6 * List.length ts + 1 <= f)%nat -> (6 * List.length ts + 1 <= g)%nat ->
     p_term_loop f acc ts = p_term_loop g acc ts) /\
  (forall g ts, (6 * List.length ts + 2 <= f)%nat -> (6 * List.length ts + 2 <= g)%nat ->
     p_factor f ts = p_factor g ts) /\
  (forall g ts, (6 * List.length ts + 1 <= f)%nat -> (6 * List.length ts + 1 <= g)%nat ->
     p_comp f ts = p_comp g ts).
Proof.
  assert (forall A ts n (r : res (A * list token)) B (k k' : A * list token -> res B),
    fine over1 ts r -> (List.length ts <= n)%nat ->
    (forall a ts', (List.length ts' < n)%nat -> k (a, ts') = k' (a, ts')) -> bind r k = bind r k') as K.
  { intros A ts n [[a t]|e|u|] B k k' H L HK; try reflexivity. cbn. apply HK. apply over1_len in H. lia. }
  induction f as [|f (IE & IEL & IT & ITL & IF & IC)].
  { repeat apply conj; intros; exfalso; lia. }
  repeat apply conj; intros [|g]; try (intros; exfalso; lia).
  - intros ts H G. cbn [p_expr]. rewrite (IT g) by lia.
    eapply K; [apply exprs_fine; lia|reflexivity|]. intros a ts' L. apply IEL; lia.
  - intros acc [|t ts] H G; cbn [p_expr_loop]; [reflexivity|]. cbn in H, G.
    destruct (tok_at_end t); [reflexivity|]. destruct (addop t) as [op|]; [|reflexivity].
    rewrite (IT g) by lia. eapply K; [apply exprs_fine; lia|reflexivity|]. intros a ts' L. apply IEL; lia.
  - intros ts H G. cbn [p_term]. rewrite (IF g) by lia.
    eapply K; [apply exprs_fine; lia|reflexivity|]. intros a ts' L. apply ITL; lia.
  - intros acc [|t ts] H G; cbn [p_term_loop]; [reflexivity|]. cbn in H, G.
    destruct (tok_at_end t); [reflexivity|]. destruct (mulop t) as [op|]; [|reflexivity].
    rewrite (IF g) by lia. eapply K; [apply exprs_fine; lia|reflexivity|]. intros a ts' L. apply ITL; lia.
  - intros [|t ts] H G; cbn [p_factor]; [reflexivity|]. cbn in H, G.
    destruct (unaryop t) as [op|]; [rewrite (IF g) by lia; reflexivity|]. apply IC; cbn; lia.
  - intros [|t ts] H G; cbn [p_comp]; [reflexivity|]. cbn in H, G.
    rewrite (IE g) by lia. reflexivity.
Qed.

Definition Expr ts := p_expr (6 * List.length ts + 4) ts.
Definition ExprLoop acc ts := p_expr_loop (6 * List.length ts + 1) acc ts.
Definition Term ts := p_term (6 * List.length ts + 3) ts.
Definition TermLoop acc ts := p_term_loop (6 * List.length ts + 1) acc ts.
Definition Factor ts := p_factor (6 * List.length ts + 2) ts.
Definition Comp ts := p_comp (6 * List.length ts + 1) ts.

Lemma parse_expr_eq : forall ts, parse_expr ts = Expr ts.
Proof. intros ts. apply fuel_indep; lia. Qed.

Lemma bind_fine_ext : forall A ts (r : res (A * list token)) B (k k' : A * list token -> res B),
  fine over1 ts r ->
  (forall a ts', (List.length ts' < List.length ts)%nat -> k (a, ts') = k' (a, ts')) ->
  bind r k = bind r k'.
Proof. intros A ts [[a t]|e|u|] B k k' H HK; try reflexivity. cbn. apply HK. apply over1_len in H. lia. Qed.

Lemma Expr_eq : forall ts, Expr ts = (let* (t, ts1) := Term ts in ExprLoop t ts1).
Proof.
  intros ts. unfold Expr. replace (6 * List.length ts + 4)%nat with (S (6 * List.length ts + 3)) by lia.
  cbn [p_expr]. fold (Term ts). eapply bind_fine_ext; [apply exprs_fine; lia|].
  intros a ts' L. apply fuel_indep; lia.
Qed.
Lemma Term_eq : forall ts, Term ts = (let* (t, ts1) := Factor ts in TermLoop t ts1).
Proof.
  intros ts. unfold Term. replace (6 * List.length ts + 3)%nat with (S (6 * List.length ts + 2)) by lia.
  cbn [p_term]. fold (Factor ts). eapply bind_fine_ext; [apply exprs_fine; lia|].
  intros a ts' L. apply fuel_indep; lia.
Qed.
Lemma ExprLoop_eq : forall acc t ts, ExprLoop acc (t :: ts) =
  if tok_at_end t then Ok (acc, t :: ts)
  else match addop t with
       | None => Ok (acc, t :: ts)
       | Some op => let* (r, ts1) := Term ts in ExprLoop (EBin op acc r) ts1
       end.
Proof.
  intros acc t ts. unfold ExprLoop at 1.
  replace (6 * List.length (t :: ts) + 1)%nat with (S (6 * List.length ts + 6)) by (cbn; lia).
  cbn [p_expr_loop]. destruct (tok_at_end t); [reflexivity|]. destruct (addop t) as [op|]; [|reflexivity].
  unfold Term. rewrite (proj1 (proj2 (proj2 (fuel_indep _))) (6 * List.length ts + 3)%nat) by lia.
  eapply bind_fine_ext; [apply exprs_fine; lia|]. intros a ts' L. apply fuel_indep; lia.
Qed.
Lemma TermLoop_eq : forall acc t ts, TermLoop acc (t :: ts) =
  if tok_at_end t then Ok (acc, t :: ts)
  else match mulop t with
       | None => Ok (acc, t :: ts)
       | Some op => let* (r, ts1) := Factor ts in TermLoop (EBin op acc r) ts1
       end.
Proof.
  intros acc t ts. unfold TermLoop at 1.
  replace (6 * List.length (t :: ts) + 1)%nat with (S (6 * List.length ts + 6)) by (cbn; lia).
  cbn [p_term_loop]. destruct (tok_at_end t); [reflexivity|]. destruct (mulop t) as [op|]; [|reflexivity].
  unfold Factor. rewrite (proj1 (proj2 (proj2 (proj2 (proj2 (fuel_indep _))))) (6 * List.length ts + 2)%nat) by lia.
  eapply bind_fine_ext; [apply exprs_fine; lia|]. intros a ts' L. apply fuel_indep; lia.
Qed.
Lemma Factor_eq : forall t ts, Factor (t :: ts) =
  match unaryop t with
  | Some op => let* (a, ts1) := Factor ts in Ok (EUn op a, ts1)
  | None => Comp (t :: ts)
  end.
Proof.
  intros t ts. unfold Factor at 1.
  replace (6 * List.length (t :: ts) + 2)%nat with (S (6 * List.length ts + 7)) by (cbn; lia).
  cbn [p_factor]. destruct (unaryop t) as [op|].
  - unfold Factor. rewrite (proj1 (proj2 (proj2 (proj2 (proj2 (fuel_indep _))))) (6 * List.length ts + 2)%nat) by lia.
    reflexivity.
  - apply fuel_indep; cbn; lia.
Qed.
Lemma Comp_paren : forall ts, Comp (punct "(" :: ts) =
  (let* (e, ts1) := Expr ts in let* ts2 := consume ")" ts1 in Ok (e, ts2)).
Proof.
  intros ts. unfold Comp.
  replace (6 * List.length (punct "(" :: ts) + 1)%nat with (S (6 * List.length ts + 6)) by (cbn; lia).
  cbn [p_comp]. cbn. unfold Expr.
  rewrite (proj1 (fuel_indep _) (6 * List.length ts + 4)%nat) by lia. reflexivity.
Qed.

Lemma Comp_lit : forall v t ts, Comp (TLit v t :: ts) = Ok (mk_lit v t, ts).
Proof.
  intros v t ts. unfold Comp.
  replace (6 * List.length (TLit v t :: ts) + 1)%nat with (S (6 * List.length ts + 6)) by (cbn; lia).
  reflexivity.
Qed.
Lemma Comp_at : forall ts, Comp (punct "@" :: ts) =
  match p_ident true ts with Some r => r | None => Err E_parse end.
Proof.
  intros ts. unfold Comp.
  replace (6 * List.length (punct "@" :: ts) + 1)%nat with (S (6 * List.length ts + 6)) by (cbn; lia).
  reflexivity.
Qed.
Lemma Comp_ident : forall t ts r, p_ident false (t :: ts) = Some r -> Comp (t :: ts) = r.
Proof.
  intros t ts r H. unfold Comp.
  replace (6 * List.length (t :: ts) + 1)%nat with (S (6 * List.length ts + 6)) by (cbn; lia).
  cbn [p_comp]. destruct t; try discriminate H; rewrite H; [reflexivity|].
  cbn in H. destruct (p =? P_scope) eqn:E; [|discriminate H]. apply Z.eqb_eq in E. subst p. reflexivity.
Qed.

(** ** Expressions written out parse to themselves. *)
Definition scope_free (ts : list token) : Prop :=
  match ts with [] => False | t :: _ => is_punct P_scope t = false end.
Definition no_mul (ts : list token) : Prop :=
  match ts with [] => False | t :: _ => mulop t = None end.
Definition no_add (ts : list token) : Prop :=
  match ts with [] => False | t :: _ => addop t = None end.

Lemma TermLoop_stop : forall e ts, no_mul ts -> TermLoop e ts = Ok (e, ts).
Proof.
  intros e [|t ts] H; [contradiction|]. rewrite TermLoop_eq. cbn in H. rewrite H.
  destruct (tok_at_end t); reflexivity.
Qed.
Lemma ExprLoop_stop : forall e ts, no_add ts -> ExprLoop e ts = Ok (e, ts).
Proof.
  intros e [|t ts] H; [contradiction|]. rewrite ExprLoop_eq. cbn in H. rewrite H.
  destruct (tok_at_end t); reflexivity.
Qed.

Lemma Comp_id : forall id t rest, t = T_word \/ t = T_long -> scope_free rest ->
  Factor (written 3 (EId id t) ++ rest)%list = Ok (EId id t, rest).
Proof.
  intros [m n] t rest Ht Hr. destruct rest as [|r rest]; [contradiction|]. cbn in Hr.
  destruct m as [[|c m]|]; destruct Ht as [->| ->]; cbn [written fi_module fi_name app ntype_eqb binding].
  all: try (change (3 <? 3) with false; cbv iota; cbn [app]; rewrite Factor_eq;
            match goal with |- context [unaryop ?t] => change (unaryop t) with (@None unop) end; cbv iota).
  all: try rewrite Comp_at.
  all: try (erewrite Comp_ident by (cbn [p_ident is_punct]; reflexivity)).
  all: cbn; rewrite ?Hr; reflexivity.
Qed.

Lemma wrapped : forall e, binding e < 3 ->
  forall level, binding e < level -> written level e = (punct "(" :: written 0 e ++ [punct ")"])%list.
Proof.
  intros e H level L.
  assert (exists p, forall l, written l e = if binding e <? l then (punct "(" :: p ++ [punct ")"])%list else p) as (p & E).
  { destruct e; eexists; intros l; cbn [written]; reflexivity. }
  rewrite !E. destruct (Z.ltb_spec (binding e) level); [|lia].
  destruct (Z.ltb_spec (binding e) 0); [|reflexivity]. exfalso. destruct e as [| |[] ? ?| |]; cbn in *; lia.
Qed.
Lemma unwrapped : forall e level, level <= binding e -> written level e = written 0 e.
Proof.
  intros e level L.
  assert (exists p, forall l, written l e = if binding e <? l then (punct "(" :: p ++ [punct ")"])%list else p) as (p & E).
  { destruct e; eexists; intros l; cbn [written]; reflexivity. }
  rewrite !E. destruct (Z.ltb_spec (binding e) level); [lia|].
  destruct (Z.ltb_spec (binding e) 0); [|reflexivity]. exfalso. destruct e as [| |[] ? ?| |]; cbn in *; lia.
Qed.

Definition reads (e : expr) : Prop := forall rest,
  (scope_free rest -> Factor (written 2 e ++ rest)%list = Ok (e, rest)) /\
  (scope_free rest -> Term (written 1 e ++ rest)%list = TermLoop e rest) /\
  (scope_free rest -> no_mul rest -> Expr (written 0 e ++ rest)%list = ExprLoop e rest).

(** From a factor everything follows. *)
Lemma reads_factor : forall e, 2 <= binding e ->
  (forall rest, scope_free rest -> Factor (written 0 e ++ rest)%list = Ok (e, rest)) -> reads e.
Proof.
  intros e B H rest. rewrite (unwrapped e 2), (unwrapped e 1) by lia.
  assert (scope_free rest -> Term (written 0 e ++ rest)%list = TermLoop e rest) as HT.
  { intros S. rewrite Term_eq, H by exact S. reflexivity. }
  split; [apply H|]. split; [exact HT|].
  intros S M. rewrite Expr_eq, HT, TermLoop_stop by assumption. reflexivity.
Qed.
(** From the sum level, the levels in parentheses follow. *)
Lemma paren_factor : forall e rest, (forall rest, scope_free rest -> no_mul rest ->
    Expr (written 0 e ++ rest)%list = ExprLoop e rest) ->
  Factor ((punct "(" :: written 0 e ++ [punct ")"]) ++ rest)%list = Ok (e, rest).
Proof.
  intros e rest H. cbn [app]. rewrite <- app_assoc. cbn [app]. rewrite Factor_eq. cbn [unaryop].
  change (unaryop (punct "(")) with (@None unop). cbv iota. rewrite Comp_paren, H by reflexivity.
  rewrite ExprLoop_stop by reflexivity. reflexivity.
Qed.

Lemma all_read : forall e, writable e -> reads e.
Proof.
  induction e as [v t|id t|op l IHl r IHr|op a IHa|l e]; intros W.
  - apply reads_factor; [cbn; lia|]. intros rest S.
    change (written 0 (ELit v t) ++ rest)%list with (TLit v t :: rest). rewrite Factor_eq, Comp_lit.
    cbn [writable] in W. unfold mk_lit. rewrite W. reflexivity.
  - apply reads_factor; [cbn; lia|]. intros rest S. rewrite <- (unwrapped _ 3) by (cbn; lia).
    apply Comp_id; assumption.
  - cbn [writable] in W. destruct W as [Wl Wr]. specialize (IHl Wl). specialize (IHr Wr).
    assert (forall rest, scope_free rest -> no_mul rest ->
              Expr (written 0 (EBin op l r) ++ rest)%list = ExprLoop (EBin op l r) rest) as HE.
    { intros rest S M. destruct op; cbn [written binding binop_sign].
      - change (0 <? 0) with false. cbv iota. rewrite <- app_assoc. cbn [app].
        destruct (IHl (punct "+" :: written (0 + 1) r ++ rest)%list) as (_ & _ & ->); try reflexivity.
        rewrite ExprLoop_eq. cbn [tok_at_end addop]. cbn [is_eol is_char is_punct punct orb].
        change (code "+" =? code ":") with false. change (code "+" =? code "+") with true. cbv iota.
        destruct (IHr rest) as (_ & Hr & _). change (0 + 1) with 1. rewrite Hr, TermLoop_stop by assumption. reflexivity.
      - change (0 <? 0) with false. cbv iota. rewrite <- app_assoc. cbn [app].
        destruct (IHl (punct "-" :: written (0 + 1) r ++ rest)%list) as (_ & _ & ->); try reflexivity.
        rewrite ExprLoop_eq. change (tok_at_end (punct "-")) with false. change (addop (punct "-")) with (Some Op_minus).
        cbv iota.
        destruct (IHr rest) as (_ & Hr & _). change (0 + 1) with 1. rewrite Hr, TermLoop_stop by assumption. reflexivity.
      - change (1 <? 0) with false. cbv iota. rewrite <- app_assoc. cbn [app].
        rewrite Expr_eq.
        destruct (IHl (punct "*" :: written (1 + 1) r ++ rest)%list) as (_ & -> & _); [|reflexivity].
        rewrite TermLoop_eq. change (tok_at_end (punct "*")) with false. change (mulop (punct "*")) with (Some Op_mul).
        cbv iota. destruct (IHr rest) as (Hr & _). change (1 + 1) with 2. rewrite Hr by assumption. cbn [bind].
        rewrite TermLoop_stop by assumption. reflexivity.
      - change (1 <? 0) with false. cbv iota. rewrite <- app_assoc. cbn [app].
        rewrite Expr_eq.
        destruct (IHl (punct "/" :: written (1 + 1) r ++ rest)%list) as (_ & -> & _); [|reflexivity].
        rewrite TermLoop_eq. change (tok_at_end (punct "/")) with false. change (mulop (punct "/")) with (Some ModelExpr.Op_div).
        cbv iota. destruct (IHr rest) as (Hr & _). change (1 + 1) with 2. rewrite Hr by assumption. cbn [bind].
        rewrite TermLoop_stop by assumption. reflexivity. }
    assert (forall rest, Factor (written 2 (EBin op l r) ++ rest)%list = Ok (EBin op l r, rest)) as HF.
    { intros rest. rewrite wrapped by (destruct op; cbn; lia). apply paren_factor. exact HE. }
    intros rest. split; [intros _; apply HF|]. split; [|apply HE].
    intros S. destruct op.
    1, 2: rewrite wrapped by (cbn; lia); rewrite Term_eq, paren_factor by exact HE; reflexivity.
    + cbn [written binding binop_sign]. change (1 <? 1) with false. cbv iota. rewrite <- app_assoc. cbn [app].
      destruct (IHl (punct "*" :: written (1 + 1) r ++ rest)%list) as (_ & -> & _); [|reflexivity].
      rewrite TermLoop_eq. change (tok_at_end (punct "*")) with false. change (mulop (punct "*")) with (Some Op_mul).
      cbv iota. destruct (IHr rest) as (Hr & _). change (1 + 1) with 2. rewrite Hr by assumption. reflexivity.
    + cbn [written binding binop_sign]. change (1 <? 1) with false. cbv iota. rewrite <- app_assoc. cbn [app].
      destruct (IHl (punct "/" :: written (1 + 1) r ++ rest)%list) as (_ & -> & _); [|reflexivity].
      rewrite TermLoop_eq. change (tok_at_end (punct "/")) with false. change (mulop (punct "/")) with (Some ModelExpr.Op_div).
      cbv iota. destruct (IHr rest) as (Hr & _). change (1 + 1) with 2. rewrite Hr by assumption. reflexivity.
  - apply reads_factor; [cbn; lia|]. intros rest S. cbn [written binding]. change (2 <? 0) with false. cbv iota.
    cbn [app]. rewrite Factor_eq.
    assert (unaryop (unop_sign op) = Some op) as -> by (destruct op; reflexivity).
    destruct (IHa W rest) as (Ha & _). rewrite Ha by exact S. reflexivity.
  - contradiction.
Qed.

Lemma expression_roundtrip : forall e t rest, writable e -> ~ continues t ->
  parse_expr (written 0 e ++ t :: rest)%list = Ok (e, t :: rest).
Proof.
  intros e t rest W H. rewrite parse_expr_eq.
  assert (forall c, In (punct c) [punct "+"; punct "-"; punct "*"; punct "/"; TPunct P_scope] -> is_char c t = false) as K.
  { intros c Hc. destruct (is_char c t) eqn:E; [|reflexivity]. exfalso. apply H.
    destruct t; try discriminate E. cbn in E. apply Z.eqb_eq in E. subst p. exact Hc. }
  destruct (all_read e W (t :: rest)) as (_ & _ & HE). rewrite HE.
  - apply ExprLoop_stop. cbn. unfold addop. rewrite !K by (cbn; tauto). reflexivity.
  - cbn. destruct (is_punct P_scope t) eqn:E; [|reflexivity]. exfalso. apply H.
    destruct t; try discriminate E. apply Z.eqb_eq in E. subst p. cbn. tauto.
  - cbn. unfold mulop. rewrite !K by (cbn; tauto). reflexivity.
Qed.

(** ** The grammar. *)
Lemma grammar_sound : forall f,
  (forall ts e r, p_expr f ts = Ok (e, r) ->
     exists p, ts = (p ++ r)%list /\ grammar 0 p e /\ no_add r /\ no_mul r) /\
  (forall acc ts e r q, p_expr_loop f acc ts = Ok (e, r) -> grammar 0 q acc -> no_mul ts ->
     exists p, ts = (p ++ r)%list /\ grammar 0 (q ++ p)%list e /\ no_add r /\ no_mul r) /\
  (forall ts e r, p_term f ts = Ok (e, r) ->
     exists p, ts = (p ++ r)%list /\ grammar 1 p e /\ no_mul r) /\
  (forall acc ts e r q, p_term_loop f acc ts = Ok (e, r) -> grammar 1 q acc ->
     exists p, ts = (p ++ r)%list /\ grammar 1 (q ++ p)%list e /\ no_mul r) /\
  (forall ts e r, p_factor f ts = Ok (e, r) -> exists p, ts = (p ++ r)%list /\ grammar 2 p e) /\
  (forall ts e r, p_comp f ts = Ok (e, r) -> exists p, ts = (p ++ r)%list /\ grammar 3 p e).
Proof.
  assert (forall t, tok_at_end t = true -> addop t = None /\ mulop t = None) as AE.
  { intros t H. unfold tok_at_end in H. apply orb_prop in H as [H|H]; destruct t; try discriminate H.
    - split; reflexivity.
    - cbn in H. apply Z.eqb_eq in H. subst p. split; reflexivity. }
  assert (forall t c, is_char c t = true -> t = punct c) as PC.
  { intros t c H. destruct t; try discriminate H. cbn in H. apply Z.eqb_eq in H. subst p. reflexivity. }
  assert (forall t op, addop t = Some op -> t = binop_sign op /\ (op = Op_plus \/ op = Op_minus)) as AS.
  { intros t op. unfold addop. destruct (is_char "+" t) eqn:E; [apply PC in E; intros X; injection X as <-; subst; split; [reflexivity|tauto]|].
    destruct (is_char "-" t) eqn:E2; [apply PC in E2; intros X; injection X as <-; subst; split; [reflexivity|tauto]|discriminate]. }
  assert (forall t op, mulop t = Some op -> t = binop_sign op /\ (op = Op_mul \/ op = ModelExpr.Op_div)) as MS.
  { intros t op. unfold mulop. destruct (is_char "*" t) eqn:E; [apply PC in E; intros X; injection X as <-; subst; split; [reflexivity|tauto]|].
    destruct (is_char "/" t) eqn:E2; [apply PC in E2; intros X; injection X as <-; subst; split; [reflexivity|tauto]|discriminate]. }
  assert (forall t op, unaryop t = Some op -> t = unop_sign op) as US.
  { intros t op. unfold unaryop.
    destruct (is_char "-" t) eqn:E1; [apply PC in E1; intros X; injection X as <-; exact E1|].
    destruct (is_char "<" t) eqn:E2; [apply PC in E2; intros X; injection X as <-; exact E2|].
    destruct (is_char ">" t) eqn:E3; [apply PC in E3; intros X; injection X as <-; exact E3|].
    destruct (is_char "^" t) eqn:E4; [apply PC in E4; intros X; injection X as <-; exact E4|discriminate]. }
  assert (forall ts e r, p_ident false ts = Some (Ok (e, r)) ->
            exists p id, ts = (p ++ r)%list /\ e = EId id T_word /\ grammar 3 p e /\ hd_error p <> Some (punct "(")) as PI.
  { intros [|t ts] e r H; [discriminate H|]. destruct t; try discriminate H.
    - cbn in H. injection H as H. destruct ts as [|t1 ts]; [discriminate H|].
      destruct (is_punct P_scope t1) eqn:E.
      + destruct t1; try discriminate E. apply Z.eqb_eq in E. subst p. destruct ts as [|[s2| | | | | |] ts]; try discriminate H.
        injection H as <- <-. exists [TIdent s; TPunct P_scope; TIdent s2], (FullId (Some s) s2).
        repeat split; [constructor|discriminate].
      + injection H as <- <-. exists [TIdent s], (FullId None s). repeat split; [constructor|discriminate].
    - cbn in H. destruct (p =? P_scope) eqn:E; [|discriminate H]. apply Z.eqb_eq in E. subst p.
      injection H as H. destruct ts as [|[s2| | | | | |] ts]; try discriminate H. injection H as <- <-.
      exists [TPunct P_scope; TIdent s2], (FullId (Some "") s2). repeat split; [constructor|discriminate]. }
  assert (forall ts e r, p_ident true ts = Some (Ok (e, r)) ->
            exists id, e = EId id T_long /\ p_ident false ts = Some (Ok (EId id T_word, r))) as PL.
  { intros [|t ts] e r H; [discriminate H|]. destruct t; try discriminate H.
    - cbn in H |- *. injection H as H. destruct ts as [|t1 ts]; [discriminate H|].
      destruct (is_punct P_scope t1).
      + destruct ts as [|[s2| | | | | |] ts]; try discriminate H. injection H as <- <-. eexists; split; reflexivity.
      + injection H as <- <-. eexists; split; reflexivity.
    - cbn in H |- *. destruct (p =? P_scope); [|discriminate H].
      injection H as H. destruct ts as [|[s2| | | | | |] ts]; try discriminate H. injection H as <- <-.
      eexists; split; reflexivity. }
  induction f as [|f (IE & IEL & IT & ITL & IF & IC)].
  { repeat apply conj; intros; discriminate. }
  repeat apply conj.
  - intros ts e r H. cbn [p_expr] in H. apply bind_ok in H as ([t ts1] & H1 & H2).
    apply IT in H1 as (p & -> & G & M). apply g_term in G.
    destruct (IEL _ _ _ _ _ H2 G M) as (q & -> & G2 & N). exists (p ++ q)%list. rewrite app_assoc. auto.
  - intros acc [|t ts] e r q H G M; cbn [p_expr_loop] in H; [discriminate H|].
    destruct (tok_at_end t) eqn:E.
    { injection H as <- <-. exists []. rewrite app_nil_r. repeat split; [exact G|apply AE; exact E|exact M]. }
    destruct (addop t) as [op|] eqn:EO.
    + apply bind_ok in H as ([a ts1] & H1 & H2). apply IT in H1 as (p & -> & G1 & M1).
      apply AS in EO as [-> Hop].
      destruct (IEL _ _ _ _ _ H2 (g_sum op q acc p a Hop G G1) M1) as (p2 & -> & G2 & N).
      exists (binop_sign op :: p ++ p2)%list. cbn [app]. rewrite app_assoc. split; [reflexivity|].
      rewrite <- app_assoc in G2. cbn [app] in G2. auto.
    + injection H as <- <-. exists []. rewrite app_nil_r. repeat split; [exact G|exact EO|exact M].
  - intros ts e r H. cbn [p_term] in H. apply bind_ok in H as ([t ts1] & H1 & H2).
    apply IF in H1 as (p & -> & G). apply g_factor in G.
    destruct (ITL _ _ _ _ _ H2 G) as (q & -> & G2 & N). exists (p ++ q)%list. rewrite app_assoc. auto.
  - intros acc [|t ts] e r q H G; cbn [p_term_loop] in H; [discriminate H|].
    destruct (tok_at_end t) eqn:E.
    { injection H as <- <-. exists []. rewrite app_nil_r. repeat split; [exact G|apply AE; exact E]. }
    destruct (mulop t) as [op|] eqn:EO.
    + apply bind_ok in H as ([a ts1] & H1 & H2). apply IF in H1 as (p & -> & G1).
      apply MS in EO as [-> Hop].
      destruct (ITL _ _ _ _ _ H2 (g_product op q acc p a Hop G G1)) as (p2 & -> & G2 & N).
      exists (binop_sign op :: p ++ p2)%list. cbn [app]. rewrite app_assoc. split; [reflexivity|].
      rewrite <- app_assoc in G2. cbn [app] in G2. auto.
    + injection H as <- <-. exists []. rewrite app_nil_r. repeat split; [exact G|exact EO].
  - intros [|t ts] e r H; cbn [p_factor] in H; [discriminate H|].
    destruct (unaryop t) as [op|] eqn:E.
    + apply bind_ok in H as ([a ts1] & H1 & H2). injection H2 as <- <-. apply IF in H1 as (p & -> & G).
      apply US in E. subst t. exists (unop_sign op :: p). split; [reflexivity|]. constructor. exact G.
    + apply IC in H as (p & E2 & G). exists p. split; [exact E2|]. constructor. exact G.
  - intros [|t ts] e r H; cbn [p_comp] in H; [discriminate H|].
    assert ((exists v ty, t = TLit v ty) \/
            (if is_char "@" t then match p_ident true ts with Some r => r | None => Err E_parse end
             else match p_ident false (t :: ts) with Some r => r | None =>
                    if is_char "(" t then let* (e, ts1) := p_expr f ts in let* ts2 := consume ")" ts1 in Ok (e, ts2)
                    else Err E_parse end) = Ok (e, r)) as [(v & ty & ->)|H1].
    { destruct t; try (right; exact H). left. eexists; eexists; reflexivity. }
    + injection H as <- <-. exists [TLit v ty]. split; [reflexivity|]. constructor.
    + clear H. destruct (is_char "@" t) eqn:E.
      { destruct (p_ident true ts) as [x|] eqn:E1; [|discriminate H1]. subst x. apply PC in E. subst t.
        apply PL in E1 as (id & -> & E1). apply PI in E1 as (p & id' & -> & X & G & N).
        exists (punct "@" :: p). split; [reflexivity|]. constructor; assumption. }
      destruct (p_ident false (t :: ts)) as [x|] eqn:E1.
      { subst x. apply PI in E1 as (p & id & E2 & -> & G & N). exists p. split; assumption. }
      destruct (is_char "(" t) eqn:E2; [|discriminate H1]. apply PC in E2. subst t.
      apply bind_ok in H1 as ([a ts1] & H1 & H2). apply bind_ok in H2 as (ts2 & H2 & H3). injection H3 as <- <-.
      apply IE in H1 as (p & -> & G & _). destruct ts1 as [|t1 ts1]; [discriminate H2|]. cbn [consume] in H2.
      destruct (is_char ")" t1) eqn:E3; [|discriminate H2].
      apply PC in E3. subst t1. injection H2 as <-. exists (punct "(" :: p ++ [punct ")"])%list.
      split; [cbn; rewrite <- app_assoc; reflexivity|]. constructor. exact G.
Qed.

Definition goes (level : Z) (p : list token) (e : expr) : Prop := forall rest, scope_free rest ->
  (2 <= level -> Factor (p ++ rest)%list = Ok (e, rest)) /\
  (1 <= level -> Term (p ++ rest)%list = TermLoop e rest) /\
  (no_mul rest -> Expr (p ++ rest)%list = ExprLoop e rest).
Lemma goes_factor : forall level p e, (forall rest, scope_free rest -> Factor (p ++ rest)%list = Ok (e, rest)) ->
  goes level p e.
Proof.
  intros level p e H rest S. specialize (H rest S). rewrite H.
  assert (Term (p ++ rest)%list = TermLoop e rest) as HT by (rewrite Term_eq, H; reflexivity).
  repeat split; [intros _; exact HT|]. intros M. rewrite Expr_eq, HT, TermLoop_stop by exact M. reflexivity.
Qed.
Lemma grammar_complete : forall level p e, grammar level p e -> goes level p e.
Proof.
  induction 1.
  - apply goes_factor. intros rest S. cbn [app]. rewrite Factor_eq, Comp_lit. reflexivity.
  - apply goes_factor. intros [|r rest] S; [contradiction|]. cbn in S. cbn [app]. rewrite Factor_eq.
    erewrite (Comp_ident (TIdent n)) by reflexivity. cbn. rewrite S. reflexivity.
  - apply goes_factor. intros rest S. cbn [app]. rewrite Factor_eq.
    erewrite (Comp_ident (TIdent m)) by reflexivity. reflexivity.
  - apply goes_factor. intros rest S. cbn [app]. rewrite Factor_eq.
    erewrite (Comp_ident (TPunct P_scope)) by reflexivity. reflexivity.
  - apply goes_factor. intros rest S. cbn [app]. rewrite Factor_eq. change (unaryop (punct "@")) with (@None unop).
    cbv iota. rewrite Comp_at. destruct rest as [|r rest]; [contradiction|]. cbn in S.
    inversion H; subst; cbn; rewrite ?S; try reflexivity.
    exfalso. apply H0. reflexivity.
  - apply goes_factor. intros rest S. cbn [app]. rewrite <- app_assoc. cbn [app]. rewrite Factor_eq.
    change (unaryop (punct "(")) with (@None unop). cbv iota. rewrite Comp_paren.
    destruct (IHgrammar (punct ")" :: rest) ltac:(reflexivity)) as (_ & _ & HE).
    rewrite HE by reflexivity. rewrite ExprLoop_stop by reflexivity. reflexivity.
  - apply goes_factor. intros rest S. cbn [app]. rewrite Factor_eq.
    assert (unaryop (unop_sign op) = Some op) as -> by (destruct op; reflexivity).
    destruct (IHgrammar rest S) as (HF & _). rewrite HF by lia. reflexivity.
  - intros rest S. 
    assert (Term ((tl ++ binop_sign op :: tr) ++ rest)%list = TermLoop (EBin op l r) rest) as HT.
    { rewrite <- app_assoc. cbn [app].
      destruct (IHgrammar1 (binop_sign op :: tr ++ rest)%list ltac:(destruct op; reflexivity)) as (_ & HT & _).
      rewrite HT by lia. rewrite TermLoop_eq.
      destruct (IHgrammar2 rest S) as (HF & _).
      destruct H as [-> | ->]; cbn [binop_sign].
      - change (tok_at_end (punct "*")) with false. change (mulop (punct "*")) with (Some Op_mul).
        cbv iota. rewrite HF by lia. reflexivity.
      - change (tok_at_end (punct "/")) with false. change (mulop (punct "/")) with (Some ModelExpr.Op_div).
        cbv iota. rewrite HF by lia. reflexivity. }
    split; [lia|]. split; [intros _; exact HT|].
    intros M. rewrite Expr_eq, HT, TermLoop_stop by exact M. reflexivity.
  - intros rest S. split; [lia|]. split; [lia|]. intros M. rewrite <- app_assoc. cbn [app].
    destruct (IHgrammar1 (binop_sign op :: tr ++ rest)%list ltac:(destruct op; reflexivity)) as (_ & _ & HE).
    destruct (IHgrammar2 rest S) as (_ & HT & _).
    destruct H as [-> | ->]; cbn [binop_sign] in *; rewrite HE by reflexivity; rewrite ExprLoop_eq.
    + change (tok_at_end (punct "+")) with false. change (addop (punct "+")) with (Some Op_plus).
      cbv iota. rewrite HT by lia. rewrite TermLoop_stop by exact M. reflexivity.
    + change (tok_at_end (punct "-")) with false. change (addop (punct "-")) with (Some Op_minus).
      cbv iota. rewrite HT by lia. rewrite TermLoop_stop by exact M. reflexivity.
  - intros rest S. destruct (IHgrammar rest S) as (HF & HT & HE). repeat split; intros; [apply HF|apply HT|apply HE]; try lia; assumption.
  - intros rest S. destruct (IHgrammar rest S) as (HF & HT & HE). repeat split; intros; [lia|apply HT; lia|apply HE; assumption].
  - intros rest S. destruct (IHgrammar rest S) as (HF & HT & HE). repeat split; intros; [lia|lia|apply HE; assumption].
Qed.

Lemma not_continues : forall t rest, ~ continues t ->
  scope_free (t :: rest) /\ no_mul (t :: rest) /\ no_add (t :: rest).
Proof.
  intros t rest H.
  assert (forall c, In (punct c) [punct "+"; punct "-"; punct "*"; punct "/"; TPunct P_scope] -> is_char c t = false) as K.
  { intros c Hc. destruct (is_char c t) eqn:E; [|reflexivity]. exfalso. apply H.
    destruct t; try discriminate E. cbn in E. apply Z.eqb_eq in E. subst p. exact Hc. }
  repeat split; cbn.
  - destruct (is_punct P_scope t) eqn:E; [|reflexivity]. exfalso. apply H.
    destruct t; try discriminate E. apply Z.eqb_eq in E. subst p. cbn. tauto.
  - unfold mulop. rewrite !K by (cbn; tauto). reflexivity.
  - unfold addop. rewrite !K by (cbn; tauto). reflexivity.
Qed.
Lemma expression_grammar : forall ts e t rest, ~ continues t ->
  (parse_expr ts = Ok (e, t :: rest) <-> exists p, ts = (p ++ t :: rest)%list /\ grammar 0 p e).
Proof.
  intros ts e t rest H. split.
  - intros P. apply grammar_sound in P as (p & E & G & _). exists p. split; assumption.
  - intros (p & -> & G). destruct (not_continues t rest H) as (S & M & A).
    destruct (grammar_complete _ _ _ G (t :: rest) S) as (_ & _ & HE).
    rewrite parse_expr_eq, HE by exact M. apply ExprLoop_stop. exact A.
Qed.
(** Whatever is left does not continue with an operator. *)
Lemma expression_rest : forall ts e rest, parse_expr ts = Ok (e, rest) ->
  (exists p, ts = (p ++ rest)%list /\ grammar 0 p e) /\
  (forall c r, rest = punct c :: r -> ~ In c ["+"; "-"; "*"; "/"]%char).
Proof.
  intros ts e rest P. apply grammar_sound in P as (p & E & G & A & M). split; [exists p; split; assumption|].
  intros c r -> [<-|[<-|[<-|[<-|[]]]]]; discriminate.
Qed.

(** ** Statements. *)
Definition fineq {A} (ts : list token) (Q : A -> Prop) (r : res (A * list token)) : Prop :=
  match r with
  | Ok (a, ts') => Q a /\ over ts ts'
  | Err _ => True
  | UB UB_overflow => overflowing_operand ts \/ ~ ended ts
  | UB _ | OutOfFuel => ~ ended ts
  end.
Lemma fq_ended : forall A ts Q u, ~ ended ts -> @fineq A ts Q (UB u).
Proof. intros A ts Q [] H; cbn; tauto. Qed.
Lemma fq_expr : forall A ts0 Q ts (k : expr * list token -> res (A * list token)), over ts0 ts ->
  (forall e ts', parse_expr ts = Ok (e, ts') -> over ts0 ts' -> fineq ts0 Q (k (e, ts'))) ->
  fineq ts0 Q (bind (parse_expr ts) k).
Proof.
  intros A ts0 Q ts k O H. pose proof (parse_expr_fine ts) as F.
  destruct (parse_expr ts) as [[e ts']|e|u|]; cbn [bind fine] in *; try exact I.
  - apply H; [reflexivity|]. eapply over_trans; [exact O|apply over1_over; exact F].
  - apply fq_ended. intros E. apply F. eapply ended_over; eassumption.
  - intros E. apply F. eapply ended_over; eassumption.
Qed.
Lemma fq_consume : forall A ts0 Q c ts (k : list token -> res (A * list token)), over ts0 ts ->
  c <> ":"%char -> c <> "{"%char -> c <> "}"%char ->
  (forall ts', consume c ts = Ok ts' -> over ts0 ts' -> fineq ts0 Q (k ts')) ->
  fineq ts0 Q (bind (consume c ts) k).
Proof.
  intros A ts0 Q c ts k O H1 H2 H3 H. pose proof (consume_fine c ts H1 H2 H3) as F.
  destruct (consume c ts) as [ts'|e|u|]; cbn [bind] in *; try exact I; [| |contradiction].
  - apply H; [reflexivity|]. eapply over_trans; [exact O|apply over1_over; exact F].
  - apply fq_ended. intros E. apply F. eapply ended_over; eassumption.
Qed.
Lemma over_nil : forall ts, over ts [] -> ~ ended ts.
Proof. intros ts O E. exact (ended_nil (ended_over _ _ O E)). Qed.
Lemma fq_front : forall A ts0 Q ts (k : token -> res (A * list token)), over ts0 ts ->
  (forall t ts', ts = t :: ts' -> fineq ts0 Q (k t)) -> fineq ts0 Q (bind (front ts) k).
Proof.
  intros A ts0 Q [|t ts] k O H; [apply fq_ended, over_nil; exact O|]. eapply H. reflexivity.
Qed.
Lemma fq_at_end : forall A ts0 Q ts (k : bool -> res (A * list token)), over ts0 ts ->
  (forall b, fineq ts0 Q (k b)) -> fineq ts0 Q (bind (at_end ts) k).
Proof. intros A ts0 Q [|t ts] k O H; [apply fq_ended, over_nil; exact O|]. apply H. Qed.
Lemma fq_at_end_or_suffix : forall A ts0 Q ts (k : bool -> res (A * list token)), over ts0 ts ->
  (forall b, fineq ts0 Q (k b)) -> fineq ts0 Q (bind (at_end_or_suffix ts) k).
Proof. intros A ts0 Q [|t ts] k O H; [apply fq_ended, over_nil; exact O|]. apply H. Qed.
Lemma fq_confirm_end : forall A ts0 Q ts (k : unit -> res (A * list token)), over ts0 ts ->
  fineq ts0 Q (k tt) -> fineq ts0 Q (bind (confirm_at_end ts) k).
Proof.
  intros A ts0 Q [|t ts] k O H; [apply fq_ended, over_nil; exact O|].
  cbn. destruct (tok_at_end t); [exact H|exact I].
Qed.
Lemma fq_confirm : forall A ts0 Q ts (k : unit -> res (A * list token)), over ts0 ts ->
  fineq ts0 Q (k tt) -> fineq ts0 Q (bind (confirm_at_end_or_suffix ts) k).
Proof.
  intros A ts0 Q [|t ts] k O H; [apply fq_ended, over_nil; exact O|].
  cbn. destruct (tok_at_end_or_suffix t); [exact H|exact I].
Qed.
Lemma fq_register : forall A ts0 Q l ts (k : unit -> res (A * list token)), over ts0 ts ->
  fineq ts0 Q (k tt) -> fineq ts0 Q (bind (confirm_legal_register l ts) k).
Proof.
  intros A ts0 Q l [|t ts] k O H; [apply fq_ended, over_nil; exact O|].
  cbn. destruct (is_register t); [|exact H]. destruct (existsb _ l); [exact H|exact I].
Qed.

(** Evaluation without names either succeeds, is an error, or overflows. *)
Lemma eval_null_outcome : forall e,
  match eval null_ctx e with UB u => u = UB_overflow | OutOfFuel => False | _ => True end.
Proof.
  assert (forall v, match int_result v with UB u => u = UB_overflow | OutOfFuel => False | _ => True end) as K.
  { intros v. unfold int_result. destruct (in_int v); [exact I|reflexivity]. }
  induction e as [v t|id t|op l IHl r IHr|op a IHa|l e IHe]; cbn [eval]; try exact I.
  - destruct (eval null_ctx l); destruct (eval null_ctx r); try exact I; try exact IHl; try exact IHr.
    destruct op; cbn [apply_binop]; try apply K. destruct (_ =? 0); [exact I|apply K].
  - destruct (eval null_ctx a); cbn [bind]; try exact IHa. destruct op; cbn [apply_unop]; try exact I. apply K.
  - exact IHe.
Qed.
Definition operand_overflows (a : option expr) : Prop := eval_opt null_ctx a = UB UB_overflow.
Definition fine_mode (a b : option expr) (r : res amode) : Prop :=
  match r with
  | UB u => u = UB_overflow /\ (operand_overflows a \/ operand_overflows b)
  | OutOfFuel => False
  | _ => True
  end.
Lemma eval_opt_outcome : forall a,
  match eval_opt null_ctx a with UB u => u = UB_overflow | OutOfFuel => False | _ => True end.
Proof. intros [e|]; [apply eval_null_outcome|exact I]. Qed.
Lemma coerce_byte_fine : forall a m,
  match coerce_byte a m with UB u => u = UB_overflow /\ operand_overflows a | OutOfFuel => False | _ => True end.
Proof.
  intros a m. unfold coerce_byte, operand_overflows. pose proof (eval_opt_outcome a) as H.
  destruct (t_unsigned (type_opt a)); try exact I. destruct (eval_opt null_ctx a); try exact H.
  - destruct (_ && _); exact I.
  - subst. split; reflexivity.
Qed.
Lemma coerce_word_fine : forall a m,
  match coerce_word a m with UB u => u = UB_overflow /\ operand_overflows a | OutOfFuel => False | _ => True end.
Proof.
  intros a m. unfold coerce_word, operand_overflows. pose proof (eval_opt_outcome a) as H.
  destruct (t_unsigned (type_opt a)); try exact I. destruct (eval_opt null_ctx a); try exact H.
  - destruct (_ && _); exact I.
  - subst. split; reflexivity.
Qed.
Lemma deduce_outcome : forall m sam a b, fine_mode a b (deduce_mode m sam a b).
Proof.
  intros m sam a b. unfold deduce_mode.
  assert (forall am, fine_mode a b (coerce_byte a am)) as K1.
  { intros am. pose proof (coerce_byte_fine a am) as H. destruct (coerce_byte a am); cbn in *; tauto. }
  assert (forall am, fine_mode a b (coerce_word a am)) as K2.
  { intros am. pose proof (coerce_word_fine a am) as H. destruct (coerce_word a am); cbn in *; tauto. }
  assert (forall am, fine_mode a b (coerce_bytes a b am)) as K3.
  { intros am. unfold coerce_bytes. pose proof (coerce_byte_fine a am) as H. pose proof (coerce_byte_fine b am) as H'.
    destruct (coerce_byte a am); destruct (coerce_byte b am); cbn in *; tauto. }
  assert (forall x y z, fine_mode a b (switch_byte_word_long a x y z)) as K4.
  { intros. unfold switch_byte_word_long. destruct (t_unsigned (type_opt a)); exact I. }
  assert (forall x y, fine_mode a b (switch_byte_word a x y)) as K5.
  { intros. unfold switch_byte_word. destruct (t_unsigned (type_opt a)); exact I. }
  assert (forall x y, fine_mode a b (switch_word_long a x y)) as K6.
  { intros. unfold switch_word_long. destruct (t_unsigned (type_opt a)); exact I. }
  assert (forall x, fine_mode a b (force_byte a x)) as K7.
  { intros. unfold force_byte. destruct (t_unsigned (type_opt a)); exact I. }
  assert (forall x, fine_mode a b (force_word a x)) as K8.
  { intros. unfold force_word. destruct (t_unsigned (type_opt a)); exact I. }
  assert (forall x, fine_mode a b (force_long a x)) as K9.
  { intros. unfold force_long. destruct (t_unsigned (type_opt a)); exact I. }
  destruct (is_branch_mnemonic m).
  - destruct sam; destruct (simple_identifier_opt a); exact I.
  - destruct (_ && _); [exact I|].
    destruct sam; destruct m; cbn [is_alu_mnemonic]; auto; exact I.
Qed.

(** The arguments come from the line. *)
Definition from_line (ts : list token) (a : option expr) : Prop :=
  match a with None => True | Some e => exists suf r, over ts suf /\ parse_expr suf = Ok (e, r) end.
Lemma from_line_overflow : forall ts a, from_line ts a -> operand_overflows a -> overflowing_operand ts.
Proof.
  intros ts [e|] H O; [|discriminate O]. destruct H as (suf & r & (pre & E & _) & P).
  exists pre, suf, e, r. repeat split; assumption.
Qed.
Lemma fq_create : forall ts m s sam a b ts', over ts ts' -> from_line ts a -> from_line ts b ->
  fineq ts (fun i => i_mnem i = m) (let* i := create_instruction m s sam a b in Ok (i, ts')).
Proof.
  intros ts m s sam a b ts' O Ha Hb. unfold create_instruction.
  pose proof (deduce_outcome m sam a b) as H. destruct (deduce_mode m sam a b); cbn in *; try exact I.
  - destruct (_ && _); [exact I|]. split; [reflexivity|exact O].
  - destruct H as [-> [H|H]]; left; [apply (from_line_overflow ts a)|apply (from_line_overflow ts b)]; assumption.
  - contradiction.
Qed.
Lemma from_expr : forall ts ts1 e r, over ts ts1 -> parse_expr ts1 = Ok (e, r) -> from_line ts (Some e).
Proof. intros. exists ts1, r. split; assumption. Qed.

Lemma over_tl : forall ts0 t ts c, over ts0 (t :: ts) -> is_char c t = true ->
  c <> ":"%char -> c <> "{"%char -> c <> "}"%char -> over ts0 ts.
Proof.
  intros ts0 t ts c O H H1 H2 H3. eapply over_trans; [exact O|]. apply over1_over, over1_cons.
  eapply char_plain; eassumption.
Qed.

Ltac fq :=
  repeat first
    [ exact I
    | match goal with
      | |- fineq _ _ (bind (parse_expr _) _) => apply fq_expr; [assumption|]; intros
      | |- fineq _ _ (bind (consume _ _) _) => apply fq_consume; [assumption|discriminate..|]; intros
      | |- fineq _ _ (bind (at_end _) _) => apply fq_at_end; [assumption|]; intros [|]
      | |- fineq _ _ (bind (at_end_or_suffix _) _) => apply fq_at_end_or_suffix; [assumption|]; intros [|]
      | |- fineq _ _ (bind (confirm_at_end _) _) => apply fq_confirm_end; [assumption|]
      | |- fineq _ _ (bind (confirm_at_end_or_suffix _) _) => apply fq_confirm; [assumption|]
      | |- fineq _ _ (bind (confirm_legal_register _ _) _) => apply fq_register; [assumption|]
      | |- fineq _ _ (bind (create_instruction _ _ _ _ _) _) =>
          apply fq_create; [assumption|first [exact I|eapply from_expr; [|eassumption]; eassumption]..]
      end ].

Lemma p_bare_fine : forall ts0 m sfx ts, over ts0 ts ->
  fineq ts0 (fun i => i_mnem i = m) (p_bare m sfx ts).
Proof.
  intros ts0 m sfx ts O. unfold p_bare. cbv zeta. fq.
  apply fq_front; [assumption|]. intros t ts2 ->. 
  destruct (is_char "X" t); [fq|]. destruct (is_char "Y" t); fq.
Qed.

Lemma core_fine : forall m ts0,
  fineq ts0 (fun i => i_mnem i = m) (parse_instruction_core (TMnem m :: ts0)).
Proof.
  intros m ts0. pose proof (over_refl ts0) as O0. unfold parse_instruction_core. cbv zeta.
  apply fq_front; [assumption|]. intros t ts1 E0.
  set (p := match t with TSuffix s => (s, tl ts0) | _ => (S_none, ts0) end).
  assert (over ts0 (snd p)) as O.
  { unfold p. destruct t; try exact O0. rewrite E0. apply over1_over, over1_cons. reflexivity. }
  destruct p as [sfx ts]. cbn [snd] in O. clear t ts1 E0.
  fq.
  apply fq_front; [assumption|]. intros t ts1 ->. cbn [tl].
  destruct (is_char "A" t) eqn:EA.
  { eapply over_tl in EA; try exact O; try discriminate. fq. }
  destruct (is_char "#" t) eqn:EH.
  { eapply over_tl in EH; try exact O; try discriminate. fq. }
  destruct (is_char "[" t) eqn:EB.
  { eapply over_tl in EB; try exact O; try discriminate. fq. }
  destruct (is_char "(" t) eqn:EP; [|apply p_bare_fine; exact O].
  eapply over_tl in EP; try exact O; try discriminate.
  apply fq_expr; [assumption|]. intros e ts2 HE O2.
  apply fq_front; [assumption|]. intros t2 ts3 ->. cbn [tl].
  destruct (is_char "," t2) eqn:EC.
  { eapply over_tl in EC; try exact O2; try discriminate. fq.
    apply fq_front; [assumption|]. intros t4 ts4 ->. cbn [tl].
    destruct (is_char "X" t4) eqn:EX.
    - eapply over_tl in EX; try exact EC; try discriminate. fq.
    - fq. }
  destruct (is_char ")" t2) eqn:ED; [|apply p_bare_fine; exact O2].
  eapply over_tl in ED; try exact O2; try discriminate. fq.
  apply fq_front; [assumption|]. intros t4 ts4 ->. cbn [tl].
  destruct (is_char "," t4) eqn:EX; [|apply p_bare_fine; exact O].
  eapply over_tl in EX; try exact ED; try discriminate. fq.
Qed.

Lemma fq_bind : forall A B ts0 (P : A -> Prop) (Q : B -> Prop) r k, fineq ts0 P r ->
  (forall a ts', P a -> over ts0 ts' -> fineq ts0 Q (k (a, ts'))) -> fineq ts0 Q (bind r k).
Proof.
  intros A B ts0 P Q [[a ts']|e|u|] k H K; cbn in *; try exact H. apply K; apply H.
Qed.
Lemma p_mode_fine : forall ts0 ts, over ts0 ts -> fineq ts0 (fun _ => True) (p_mode ts).
Proof.
  intros ts0 [|t ts] O; [apply fq_ended, over_nil; exact O|]. unfold p_mode. destruct t; try exact I.
  destruct (flags_from_name s); [|exact I]. split; [exact I|]. eapply over_trans; [exact O|].
  apply over1_over, over1_cons. reflexivity.
Qed.
Lemma over_tl_punct : forall ts0 t ts p, over ts0 (t :: ts) -> is_punct p t = true -> 256 < p -> over ts0 ts.
Proof.
  intros ts0 t ts p O H Hp. eapply over_trans; [exact O|]. apply over1_over, over1_cons.
  eapply punct_plain; eassumption.
Qed.
Lemma return_fine : forall ts0 ts, over ts0 ts -> fineq ts0 (fun _ => True) (parse_return_convention ts).
Proof.
  intros ts0 ts O. unfold parse_return_convention. apply fq_front; [exact O|]. intros t ts' ->. cbn [tl].
  destruct (is_punct P_noreturn t) eqn:E.
  { split; [exact I|]. eapply over_tl_punct; [exact O|exact E|reflexivity]. }
  destruct (is_punct P_yields t) eqn:E1; [|split; [exact I|exact O]].
  eapply fq_bind; [apply p_mode_fine; eapply over_tl_punct; [exact O|exact E1|reflexivity]|].
  intros a ts2 _ O2. split; [exact I|exact O2].
Qed.
Lemma instruction_fine : forall m ts0,
  fineq ts0 (fun i => i_mnem i = m) (parse_instruction (TMnem m :: ts0)).
Proof.
  intros m ts0. unfold parse_instruction. eapply fq_bind; [apply core_fine|].
  intros i ts Hi O. eapply fq_bind; [apply return_fine; exact O|]. intros rc ts2 _ O2.
  destruct (_ && _); [exact I|]. split; [exact Hi|exact O2].
Qed.
Lemma p_list_fine : forall ts0 f acc ts, over ts0 ts -> (List.length ts < f)%nat ->
  fineq ts0 (fun _ => True) (p_list f acc ts).
Proof.
  intros ts0. induction f as [|f IH]; intros acc ts O L; [lia|]. cbn [p_list].
  apply fq_expr; [exact O|]. intros e ts1 H O1. apply fq_at_end; [exact O1|]. intros [|].
  - split; [exact I|exact O1].
  - apply fq_consume; [exact O1|discriminate..|]. intros ts2 Hc O2. apply IH; [exact O2|].
    pose proof (parse_expr_fine ts) as F. rewrite H in F. cbn in F. apply over1_len in F.
    pose proof (consume_fine "," ts1 ltac:(discriminate) ltac:(discriminate) ltac:(discriminate)) as G.
    rewrite Hc in G. apply over1_len in G. lia.
Qed.
Lemma directive_fine : forall d ts0,
  fineq ts0 (fun x => d_name x = d) (parse_directive (TDir d :: ts0)).
Proof.
  intros d ts0. pose proof (over_refl ts0) as O0. unfold parse_directive. cbv zeta.
  assert (forall dt arg ts, over ts0 ts -> fineq ts0 (fun x => d_name x = d)
    (let* (f, ts) := p_mode ts in
     let* _ := match dt with DT_flag_arg => confirm_at_end ts | _ => Ok tt end in
     let* (rc, ts) := parse_return_convention ts in
     let* _ := confirm_at_end ts in Ok (Directive d arg f rc [], ts))) as K.
  { intros dt arg ts O. eapply fq_bind; [apply p_mode_fine; exact O|]. intros f ts1 _ O1.
    assert (forall k, fineq ts0 (fun x => d_name x = d) (k tt) -> fineq ts0 (fun x => d_name x = d)
       (bind (match dt with DT_flag_arg => confirm_at_end ts1 | _ => Ok tt end) k)) as K1.
    { intros k H. destruct dt; try exact H. apply fq_confirm_end; assumption. }
    apply K1. eapply fq_bind; [apply return_fine; exact O1|]. intros rc ts2 _ O2.
    apply fq_confirm_end; [exact O2|]. split; [reflexivity|exact O2]. }
  destruct (directive_type_by_name d).
  - apply fq_confirm_end; [exact O0|]. split; [reflexivity|exact O0].
  - fq. split; [reflexivity|assumption].
  - apply fq_expr; [assumption|]. intros e ts1 H O1. destruct (requires_lookup e); [exact I|]. fq.
    split; [reflexivity|assumption].
  - apply (K DT_flag_arg). exact O0.
  - apply (K DT_calling_convention_arg). exact O0.
  - eapply fq_bind; [apply p_list_fine; [exact O0|lia]|]. intros l ts1 _ O1. split; [reflexivity|exact O1].
  - apply fq_expr; [assumption|]. intros e ts1 H O1. destruct (simple_identifier e); [|exact I]. fq.
    split; [reflexivity|assumption].
  - apply fq_expr; [assumption|]. intros e ts1 H O1. apply (K DT_remote_arg). exact O1.
Qed.

(** ** Lines. *)
Lemma items_plain : forall pre ts, forallb plain pre = true ->
  items false false (pre ++ ts)%list = items false false ts.
Proof.
  induction pre as [|t pre IH]; intros ts H; [reflexivity|]. cbn in H. apply andb_prop in H as [Ht H].
  destruct t; try discriminate Ht; cbn [app items]; try (apply IH; exact H).
  cbn in Ht. apply andb_prop in Ht as [Ht H3]. apply andb_prop in Ht as [H1 H2].
  apply negb_true_iff in H1, H2, H3.
  change (code "{") with 123. change (code "}") with 125. change (code ":") with 58.
  rewrite H1, H2, H3. apply IH. exact H.
Qed.
Lemma items_over : forall ts ts', over ts ts' -> items false false ts = items false false ts'.
Proof. intros ts ts' (pre & -> & H). apply items_plain. exact H. Qed.

Lemma stray_after : forall pre c rest, In c [punct ":"; punct "{"; punct "}"] ->
  stray_colon rest -> stray_colon (pre ++ c :: rest)%list.
Proof.
  intros pre c rest Hc (a & b & -> & [->|(a' & t & -> & Ht)]).
  - exists (pre ++ [c])%list, b. rewrite <- app_assoc. split; [reflexivity|]. right. exists pre, c. split; [reflexivity|exact Hc].
  - exists (pre ++ c :: a' ++ [t])%list, b. split.
    + rewrite <- !app_assoc. cbn. rewrite <- app_assoc. reflexivity.
    + right. exists (pre ++ c :: a')%list, t. split; [|exact Ht]. rewrite <- app_assoc. reflexivity.
Qed.
Lemma overflow_after : forall pre rest, overflowing_operand rest -> overflowing_operand (pre ++ rest)%list.
Proof.
  intros pre rest (p & s & e & r & -> & H). exists (pre ++ p)%list, s, e, r. rewrite app_assoc. split; [reflexivity|exact H].
Qed.

Definition line_ok (acc : list parsed) (ts : list token) (r : res (list parsed)) : Prop :=
  match r with
  | Ok l => exists l', l = (acc ++ l')%list /\
              (~ stray_colon ts -> map parsed_item l' = items true false ts)
  | Err _ => True
  | UB UB_overflow => overflowing_operand ts
  | UB _ | OutOfFuel => False
  end.

(** What follows a statement. *)
Lemma after_statement : forall ts0 ts1 t, ended ts0 -> over ts0 (t :: ts1) -> tok_at_end t = true ->
  (ended ts1 \/ ts1 = []) /\
  items false false ts0 = items true false ts1 /\
  (forall pre, ~ stray_colon (pre ++ ts0)%list -> ~ stray_colon ts1) /\
  (overflowing_operand ts1 -> overflowing_operand ts0).
Proof.
  intros ts0 ts1 t E O H. pose proof (ended_over _ _ O E) as E1. pose proof (items_over _ _ O) as HI.
  destruct O as (p & -> & Hp). unfold tok_at_end in H. apply orb_prop in H as [H|H].
  - destruct t; try discriminate H. apply ended_eol in E1. subst ts1. split; [right; reflexivity|].
    split; [rewrite HI; reflexivity|]. split.
    + intros pre _ (a & b & X & _). destruct a; discriminate X.
    + intros (a & b & e & r & X & Y & _). destruct a; [|discriminate X]. cbn in X. subst b.
      pose proof (parse_expr_fine []) as F. rewrite Y in F. apply over1_len in F.
      cbn in F. lia.
  - assert (t = punct ":") as ->.
    { destruct t; try discriminate H. cbn in H. apply Z.eqb_eq in H. subst. reflexivity. }
    split; [left; eapply ended_tail; [exact E1|discriminate]|].
    split; [rewrite HI; reflexivity|]. split.
    + intros pre N X. apply N. rewrite app_assoc. apply stray_after; [left; reflexivity|exact X].
    + intros X. change (p ++ punct ":" :: ts1)%list with (p ++ [punct ":"] ++ ts1)%list. rewrite app_assoc.
      apply overflow_after. exact X.
Qed.

Definition stmt_part (f : nat) (acc : list parsed) (ts : list token) : res (list parsed) :=
  let* t := front ts in
  if tok_at_end t then Ok acc
  else if is_char "{" t || is_char "}" t then
    let d := Directive (if is_char "{" t then D_begin else D_end) None default_flags RC_default [] in
    parse_loop f (acc ++ [PStmt (SDir d)])%list (tl ts)
  else match tok_dir t with
  | Some _ =>
      let* (d, ts) := parse_directive ts in
      let* b := at_end ts in
      if b then parse_loop f (acc ++ [PStmt (SDir d)])%list (tl ts) else Err E_logic
  | None =>
      match tok_mnem t with
      | None => Err E_parse
      | Some _ =>
          let* (i, ts) := parse_instruction ts in
          let* b := at_end ts in
          if b then parse_loop f (acc ++ [PStmt (SInstr i)])%list (tl ts) else Err E_logic
      end
  end.

Definition rest_ok (acc : list parsed) (pre : list token) (fresh : bool) (ts : list token)
  (r : res (list parsed)) : Prop :=
  match r with
  | Ok l => exists l', l = (acc ++ l')%list /\
              (~ stray_colon (pre ++ ts) -> map parsed_item l' = items fresh false ts)
  | Err _ => True
  | UB UB_overflow => overflowing_operand ts
  | UB _ | OutOfFuel => False
  end.

Lemma rest_step : forall f acc pre fresh t ts0 ts1 t1 st,
  (forall acc ts, ended ts \/ ts = [] -> (List.length ts < f)%nat -> line_ok acc ts (parse_loop f acc ts)) ->
  ended ts0 -> (List.length ts0 < f)%nat -> over ts0 (t1 :: ts1) -> tok_at_end t1 = true ->
  items fresh false (t :: ts0) = parsed_item (PStmt st) :: items false false ts0 ->
  rest_ok acc pre fresh (t :: ts0) (parse_loop f (acc ++ [PStmt st])%list ts1).
Proof.
  intros f acc pre fresh t ts0 ts1 t1 st IH E L O H HI.
  destruct (after_statement ts0 ts1 t1 E O H) as (E1 & HJ & HS & HO).
  assert (List.length ts1 < f)%nat as L1 by (apply over_len in O; cbn in O; lia).
  specialize (IH (acc ++ [PStmt st])%list ts1 E1 L1).
  destruct (parse_loop f _ ts1) as [l|e|[]|]; cbn in *; try exact IH; try contradiction.
  - destruct IH as (l' & -> & K). exists (PStmt st :: l'). rewrite <- app_assoc. split; [reflexivity|].
    intros N. cbn [map]. rewrite HI, HJ, K; [reflexivity|].
    apply (HS (pre ++ [t])%list). rewrite <- app_assoc. exact N.
  - apply (overflow_after [t]). apply HO. exact IH.
Qed.

Lemma stmt_part_ok : forall f acc pre fresh ts,
  (forall acc ts, ended ts \/ ts = [] -> (List.length ts < f)%nat -> line_ok acc ts (parse_loop f acc ts)) ->
  ended ts -> (List.length ts <= f)%nat ->
  (forall r, ts = punct ":" :: r -> stray_colon (pre ++ ts)) ->
  rest_ok acc pre fresh ts (stmt_part f acc ts).
Proof.
  intros f acc pre fresh [|t ts0] IH E L S; [destruct (ended_nil E)|].
  assert (forall A (P : A -> Prop) (r : res (A * list token)) (mk : A -> statement),
    t <> TEol -> fineq ts0 P r ->
    (forall a, P a -> items fresh false (t :: ts0) = parsed_item (PStmt (mk a)) :: items false false ts0) ->
    rest_ok acc pre fresh (t :: ts0)
      (let* (a, ts) := r in let* b := at_end ts in
       if b then parse_loop f (acc ++ [PStmt (mk a)])%list (tl ts) else Err E_logic)) as K.
  { intros A P r mk Ht F HI. pose proof (ended_tail _ _ E Ht) as E0.
    destruct r as [[a ts]|e|u|].
    - destruct F as [Ha O]. destruct ts as [|t1 ts1]; [destruct (over_nil _ O E0)|]. cbn [bind at_end front tl].
      destruct (tok_at_end t1) eqn:E1; [|exact I].
      eapply rest_step; [exact IH|exact E0|cbn in L; lia|exact O|exact E1|]. apply HI. exact Ha.
    - exact I.
    - cbn in *. destruct u; try contradiction. destruct F as [F|F]; [|contradiction].
      apply (overflow_after [t]). exact F.
    - cbn in F. contradiction. }
  unfold stmt_part. cbn [bind front tl].
  destruct (tok_at_end t) eqn:ET.
  { exists []. rewrite app_nil_r. split; [reflexivity|]. intros N. unfold tok_at_end in ET. apply orb_prop in ET as [ET|ET].
    - destruct t; try discriminate ET. apply ended_eol in E. subst. reflexivity.
    - assert (t = punct ":") as -> by (destruct t; try discriminate ET; cbn in ET; apply Z.eqb_eq in ET; subst; reflexivity).
      exfalso. apply N. eapply S. reflexivity. }
  destruct (is_char "{" t || is_char "}" t) eqn:EB.
  { set (st := SDir _). specialize (IH (acc ++ [PStmt st])%list ts0).
    assert (t <> TEol) as Ht by (intros ->; discriminate EB).
    specialize (IH (or_introl (ended_tail _ _ E Ht)) ltac:(cbn in L; lia)).
    destruct (parse_loop f _ ts0) as [l|e|[]|]; cbn in *; try exact IH; try contradiction.
    - destruct IH as (l' & -> & J). exists (PStmt st :: l'). rewrite <- app_assoc. split; [reflexivity|].
      intros N. cbn [map]. rewrite J.
      + unfold st. apply orb_prop in EB. destruct t; try (destruct EB as [X|X]; discriminate X).
        cbn [is_char is_punct] in *. destruct EB as [X|X]; apply Z.eqb_eq in X; subst p; reflexivity.
      + intros X. apply N. apply stray_after; [|exact X]. apply orb_prop in EB.
        destruct t; try (destruct EB as [Y|Y]; discriminate Y).
        cbn [is_char is_punct] in *. destruct EB as [Y|Y]; apply Z.eqb_eq in Y; subst p; cbn; tauto.
    - apply (overflow_after [t]). exact IH. }
  destruct (tok_dir t) as [d|] eqn:ED.
  { destruct t; try discriminate ED. apply K with (P := fun x => d_name x = d0) (mk := SDir); [discriminate|apply directive_fine|].
    intros a <-. reflexivity. }
  destruct (tok_mnem t) as [m|] eqn:EM; [|exact I].
  destruct t; try discriminate EM. apply K with (P := fun x => i_mnem x = m0) (mk := SInstr); [discriminate|apply instruction_fine|].
  intros a <-. reflexivity.
Qed.

Lemma parse_loop_eq : forall f acc ts, parse_loop (S f) acc ts =
  match ts with
  | [] => Ok acc
  | _ :: _ =>
      let* (lab, ts, cont) := p_label ts in
      if cont then parse_loop f (acc ++ lab)%list ts else stmt_part f (acc ++ lab)%list ts
  end.
Proof. intros f acc [|t ts]; reflexivity. Qed.

Lemma parse_loop_ok : forall f acc ts, ended ts \/ ts = [] -> (List.length ts < f)%nat ->
  line_ok acc ts (parse_loop f acc ts).
Proof.
  induction f as [|f IH]; intros acc ts E L; [lia|]. rewrite parse_loop_eq.
  destruct E as [E| ->]; [|exists []; rewrite app_nil_r; split; reflexivity].
  destruct ts as [|t0 ts0]; [destruct (ended_nil E)|].
  assert (forall pre s ex ts', (t0 :: ts0 = pre ++ TIdent s :: ts')%list ->
    items true false (t0 :: ts0) = ILabel s ex :: items false false ts' ->
    ended ts' -> (List.length ts' < List.length (t0 :: ts0))%nat ->
    line_ok acc (t0 :: ts0)
    (let* (lab, ts, cont) :=
       match ts' with
       | t' :: ts'' => if is_char ":" t' then Ok ([PLabel s ex], ts'', true) else Ok ([PLabel s ex], ts', false)
       | [] => Ok ([PLabel s ex], ts', false)
       end in
     if cont then parse_loop f (acc ++ lab)%list ts else stmt_part f (acc ++ lab)%list ts)) as K.
  { intros pre s ex ts' Epre EI E' L'. destruct ts' as [|t' ts'']; [destruct (ended_nil E')|].
    destruct (is_char ":" t') eqn:EC; cbn [bind].
    - assert (t' = punct ":") as -> by (destruct t'; try discriminate EC; cbn in EC; apply Z.eqb_eq in EC; subst; reflexivity).
      assert (ended ts'') as E'' by (eapply ended_tail; [exact E'|discriminate]).
      specialize (IH (acc ++ [PLabel s ex])%list ts'' (or_introl E'') ltac:(cbn in L, L'; lia)).
      rewrite Epre in *.
      destruct (parse_loop f _ ts'') as [l|e|[]|]; cbn [line_ok] in *; try exact IH; try contradiction.
      + destruct IH as (l' & -> & J). exists (PLabel s ex :: l'). rewrite <- app_assoc. split; [reflexivity|].
        intros N. cbn [map]. rewrite J; [rewrite EI; reflexivity|].
        intros X. apply N. change (pre ++ TIdent s :: punct ":" :: ts'')%list with (pre ++ [TIdent s] ++ punct ":" :: ts'')%list.
        rewrite app_assoc. apply stray_after; [left; reflexivity|exact X].
      + change (pre ++ TIdent s :: punct ":" :: ts'')%list with (pre ++ [TIdent s; punct ":"] ++ ts'')%list.
        rewrite app_assoc. apply overflow_after. exact IH.
    - pose proof (stmt_part_ok f (acc ++ [PLabel s ex])%list (pre ++ [TIdent s])%list false (t' :: ts'') IH E'
                    ltac:(cbn in *; lia) ltac:(intros r X; injection X as -> _; discriminate EC)) as R.
      rewrite Epre in *.
      destruct (stmt_part f _ (t' :: ts'')) as [l|e|[]|]; cbn [line_ok rest_ok] in *; try exact R; try contradiction.
      + destruct R as (l' & -> & J). exists (PLabel s ex :: l'). rewrite <- app_assoc. split; [reflexivity|].
        intros N. cbn [map]. rewrite J by (rewrite <- app_assoc; exact N). rewrite EI. reflexivity.
      + change (pre ++ TIdent s :: t' :: ts'')%list with (pre ++ [TIdent s] ++ t' :: ts'')%list. rewrite app_assoc.
        apply overflow_after. exact R. }
  unfold p_label. cbn [front bind].
  destruct (is_punct P_export t0) eqn:EX.
  - assert (t0 = TPunct P_export) as -> by (destruct t0; try discriminate EX; apply Z.eqb_eq in EX; subst; reflexivity).
    assert (ended ts0) as E0 by (eapply ended_tail; [exact E|discriminate]). cbn [tl].
    destruct ts0 as [|t1 ts1]; [destruct (ended_nil E0)|]. cbn [front bind].
    destruct t1; try exact I. cbn [tok_ident bind].
    apply (K [TPunct P_export] s true ts1); [reflexivity|reflexivity| |cbn; lia].
    eapply ended_tail; [exact E0|discriminate].
  - cbn [bind].
    assert (line_ok acc (t0 :: ts0) (stmt_part f (acc ++ [])%list (t0 :: ts0))) as R0.
    { rewrite app_nil_r. apply (stmt_part_ok f acc [] true); [exact IH|exact E|cbn in *; lia|].
      intros r X. exists [], r. split; [exact X|left; reflexivity]. }
    destruct t0; try exact R0.
    apply (K [] s false ts0); [reflexivity|reflexivity| |cbn; lia].
    eapply ended_tail; [exact E|discriminate].
Qed.

Lemma parse_line : forall ts, ended ts ->
  match parse ts with
  | Ok l => ~ stray_colon ts -> map parsed_item l = items true false ts
  | Err _ => True
  | UB UB_overflow => overflowing_operand ts
  | UB _ | OutOfFuel => False
  end.
Proof.
  intros ts E. pose proof (parse_loop_ok (S (List.length ts)) [] ts (or_introl E) ltac:(lia)) as H.
  unfold parse. destruct (parse_loop _ _ ts) as [l|e|[]|]; try exact H.
  destruct H as (l' & -> & H). exact H.
Qed.
Lemma parse_safe : forall ts, ended ts ->
  match parse ts with
  | Ok _ | Err _ => True
  | UB u => u = UB_overflow /\ overflowing_operand ts
  | OutOfFuel => False
  end.
Proof.
  intros ts E. pose proof (parse_line ts E) as H. destruct (parse ts) as [l|e|[]|]; try exact I; try contradiction.
  split; [reflexivity|exact H].
Qed.
Lemma parse_accounts : forall ts l, ended ts -> ~ stray_colon ts -> parse ts = Ok l ->
  map parsed_item l = items true false ts.
Proof. intros ts l E S H. pose proof (parse_line ts E) as K. rewrite H in K. exact (K S). Qed.

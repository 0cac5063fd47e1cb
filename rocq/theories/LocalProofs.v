(** Proofs that an error of the parser depends on nothing behind the token it is about. *)
From Verif Require Import BaseProofs ModelNumeric ModelMnemonic ModelExpr ModelAMode ModelOpcode
  ModelState ModelInstr ModelToken ModelStatement ModelParse ModelAddress ModelMap ModelRom ModelTools ModelLocation ModelRomText ModelInteractive
  ModelParseText SpecParseText TokenProofs ParseProofs ParseTextProofs.
Open Scope string_scope.
Open Scope list_scope.
Open Scope Z_scope.

Definition near_at {A} (Q : rerror -> token -> Prop) (t : token) (g : list token -> pres (A * list token)) : Prop := forall ts,
  (forall a rest, g (t :: ts) = POk (a, rest) -> exists pre, t :: ts = pre ++ rest /\ forall rest', hd_error rest' = hd_error rest -> g (pre ++ rest') = POk (a, rest')) /\
  (forall e, g (t :: ts) = PErr e -> exists pre t' post, t :: ts = pre ++ t' :: post /\ Q e t' /\ forall post', g (pre ++ t' :: post') = PErr e).
Definition stuck {A} (r : pres A) : Prop := match r with PUB _ | PFuel => True | _ => False end.
Definition local {A} (Q : rerror -> token -> Prop) (g : list token -> pres (A * list token)) : Prop := (forall t, near_at Q t g) /\ stuck (g []).

Lemma head_kept : forall (t : token) ts pre rest rest', t :: ts = pre ++ rest -> hd_error rest' = hd_error rest -> exists ts', pre ++ rest' = t :: ts'.
Proof.
  intros t ts [|p pre] rest rest' E H; cbn in E.
  - subst rest. destruct rest' as [|x rest']; [discriminate|]. injection H as ->. exists rest'. reflexivity.
  - injection E as -> _. exists (pre ++ rest'). reflexivity.
Qed.
Lemma near_ext : forall A Q t (g h : list token -> pres (A * list token)), (forall ts, h (t :: ts) = g (t :: ts)) -> near_at Q t g -> near_at Q t h.
Proof.
  intros A Q t g h E N ts. specialize (N ts). destruct N as [N1 N2]. split.
  - intros a rest H. rewrite E in H. destruct (N1 _ _ H) as (pre & P & K). exists pre. split; [exact P|]. intros rest' R. destruct (head_kept _ _ _ _ _ P R) as [ts' X].
    rewrite X, E, <- X. exact (K _ R).
  - intros e H. rewrite E in H. destruct (N2 _ H) as (pre & t' & post & P & QQ & K). exists pre, t', post. split; [exact P|]. split; [exact QQ|]. intros post'.
    destruct (head_kept _ _ _ _ (t' :: post') P eq_refl) as [ts' X]. rewrite X, E, <- X. apply K.
Qed.
Lemma near_weaken : forall A (Q Q' : rerror -> token -> Prop) t (g : list token -> pres (A * list token)), (forall e t, Q e t -> Q' e t) -> near_at Q t g -> near_at Q' t g.
Proof.
  intros A Q Q' t g W N ts. destruct (N ts) as [N1 N2]. split; [exact N1|]. intros e H. destruct (N2 _ H) as (pre & t' & post & P & QQ & K).
  exists pre, t', post. auto.
Qed.
Lemma local_weaken : forall A (Q Q' : rerror -> token -> Prop) (g : list token -> pres (A * list token)), (forall e t, Q e t -> Q' e t) -> local Q g -> local Q' g.
Proof. intros A Q Q' g W [N S]. split; [intros t; exact (near_weaken _ _ _ _ _ W (N t))|exact S]. Qed.
Lemma near_ret : forall A Q t (a : A), near_at Q t (fun ts => POk (a, ts)).
Proof.
  intros A Q t a ts. split; [|intros e H; discriminate]. intros b rest H. injection H as <- <-. exists []. split; [reflexivity|]. intros rest' _. reflexivity.
Qed.
Lemma near_fail : forall A (Q : rerror -> token -> Prop) t e, Q e t -> near_at Q t (fun _ => @PErr (A * list token) e).
Proof. intros A Q t e H ts. split; [intros a rest X; discriminate|]. intros e' X. injection X as <-. exists [], t, ts. split; [reflexivity|]. split; [exact H|]. reflexivity. Qed.
Lemma near_stuck : forall A Q t (r : pres (A * list token)), stuck r -> near_at Q t (fun _ => r).
Proof. intros A Q t r S ts. destruct r; try destruct S; split; intros; discriminate. Qed.
Lemma near_tl : forall A Q t (h : list token -> pres (A * list token)), local Q h -> near_at Q t (fun ts => h (tl ts)).
Proof.
  intros A Q t h [N S] ts. cbn [tl]. destruct ts as [|t1 ts]; [destruct (h []); try destruct S; split; intros; discriminate|].
  destruct (N t1 ts) as [N1 N2]. split.
  - intros a rest H. destruct (N1 _ _ H) as (pre & P & K). exists (t :: pre). split; [cbn; rewrite P; reflexivity|]. intros rest' R. cbn [app tl]. exact (K _ R).
  - intros e H. destruct (N2 _ H) as (pre & t' & post & P & QQ & K). exists (t :: pre), t', post. split; [cbn; rewrite P; reflexivity|]. split; [exact QQ|]. exact K.
Qed.
Lemma near_bind : forall A B Q t (g : list token -> pres (A * list token)) (h : A -> list token -> pres (B * list token)),
  near_at Q t g -> (forall a, local Q (h a)) -> near_at Q t (fun ts => let^ (a, ts1) := g ts in h a ts1).
Proof.
  intros A B Q t g h N L ts. destruct (N ts) as [N1 N2]. split.
  - intros b rest H. destruct (g (t :: ts)) as [[a ts1]|e|u|] eqn:G; try discriminate. cbn [pbind] in H. destruct (N1 _ _ eq_refl) as (pre & P & K).
    destruct (L a) as [M S]. destruct ts1 as [|t1 ts1]; [rewrite H in S; destruct S|]. destruct (M t1 ts1) as [M1 _]. destruct (M1 _ _ H) as (pre2 & P2 & K2).
    exists (pre ++ pre2). split; [rewrite P, P2, app_assoc; reflexivity|]. intros rest' R. rewrite <- app_assoc. destruct (head_kept _ _ _ _ _ P2 R) as [ts' X].
    rewrite (K (pre2 ++ rest')) by (rewrite X; reflexivity). cbn [pbind]. exact (K2 _ R).
  - intros e H. destruct (g (t :: ts)) as [[a ts1]|e1|u|] eqn:G; try discriminate; cbn [pbind] in H.
    + destruct (N1 _ _ eq_refl) as (pre & P & K). destruct (L a) as [M S]. destruct ts1 as [|t1 ts1]; [rewrite H in S; destruct S|]. destruct (M t1 ts1) as [_ M2].
      destruct (M2 _ H) as (pre2 & t' & post & P2 & QQ & K2). exists (pre ++ pre2), t', post. split; [rewrite P, P2, app_assoc; reflexivity|]. split; [exact QQ|].
      intros post'. rewrite <- app_assoc. destruct (head_kept _ _ _ _ (t' :: post') P2 eq_refl) as [ts' X]. rewrite (K (pre2 ++ t' :: post')) by (rewrite X; reflexivity). cbn [pbind]. apply K2.
    + injection H as <-. destruct (N2 _ eq_refl) as (pre & t' & post & P & QQ & K). exists pre, t', post. split; [exact P|]. split; [exact QQ|]. intros post'. rewrite K. reflexivity.
Qed.
Lemma local_bind : forall A B Q (g : list token -> pres (A * list token)) (h : A -> list token -> pres (B * list token)),
  local Q g -> (forall a, local Q (h a)) -> local Q (fun ts => let^ (a, ts1) := g ts in h a ts1).
Proof. intros A B Q g h [N S] L. split; [intros t; exact (near_bind _ _ _ _ _ _ (N t) L)|]. destruct (g []); try destruct S; exact Logic.I. Qed.
(** A step that looks at the first token and takes nothing. *)
Lemma near_look : forall A B (Q : rerror -> token -> Prop) t (c : list token -> pres B) (k : B -> list token -> pres (A * list token)) (q : pres B),
  (forall ts, c (t :: ts) = q) -> (forall e, q = PErr e -> Q e t) -> (forall b, q = POk b -> near_at Q t (k b)) -> near_at Q t (fun ts => let^ b := c ts in k b ts).
Proof.
  intros A B Q t c k q C F K. destruct q as [b|e|u|].
  - apply (near_ext _ _ _ (k b)); [|exact (K b eq_refl)]. intros ts. rewrite C. reflexivity.
  - apply (near_ext _ _ _ (fun _ => PErr e)); [intros ts; rewrite C; reflexivity|]. apply near_fail. exact (F e eq_refl).
  - apply (near_ext _ _ _ (fun _ => PUB u)); [intros ts; rewrite C; reflexivity|]. apply near_stuck. exact Logic.I.
  - apply (near_ext _ _ _ (fun _ => PFuel)); [intros ts; rewrite C; reflexivity|]. apply near_stuck. exact Logic.I.
Qed.
Lemma near_front : forall A Q t (k : token -> list token -> pres (A * list token)), near_at Q t (k t) -> near_at Q t (fun ts => let^ t := t_front ts in k t ts).
Proof. intros A Q t k N. apply (near_ext _ _ _ (k t)); [reflexivity|exact N]. Qed.
Lemma near_cond : forall A Q t (b : bool) (g h : list token -> pres (A * list token)), (b = true -> near_at Q t g) -> (b = false -> near_at Q t h) -> near_at Q t (fun ts => if b then g ts else h ts).
Proof. intros A Q t [] g h G H; [exact (G eq_refl)|exact (H eq_refl)]. Qed.

(** ** The steps of the parser. *)
(* the errors about a token *)
Definition names (l : location) (e : rerror) (t : token) : Prop :=
  re_kind e = E_parse /\ re_loc e = loc_update no_location l /\
  ((forall d, t <> TDir d) /\ mentions (re_text e) (shown t) \/ exists d, t = TDir d /\ mentions (re_text e) "logic error?").
Lemma mentions_add : forall text part a, mentions text part -> mentions (a ++ text)%string part.
Proof. intros text part a (x & y & ->). exists (a ++ x)%string, y. rewrite sapp_assoc. reflexivity. Qed.
Lemma mentions_end : forall text part a, mentions text part -> mentions (text ++ a)%string part.
Proof. intros text part a (x & y & ->). exists x, (y ++ a)%string. rewrite !sapp_assoc. reflexivity. Qed.
Lemma mentions_self : forall part, mentions part part.
Proof. intros part. exists "", "". cbn. induction part; cbn; congruence. Qed.
Lemma token_shown : forall t, (forall d, t <> TDir d) -> mentions (token_to_string t) (shown t).
Proof.
  intros [s|v ty|m|s|d|p|] N; cbn [token_to_string shown]; try (apply mentions_add, mentions_self); [destruct (N d eq_refl)| |apply mentions_self].
  assert (K : forall a b, mentions (a ++ punct_to_string p ++ b) (punct_to_string p)) by (intros a b; exists a, b; reflexivity).
  destruct (_ <? _)%nat; [apply (K "keyword `" "`")|]. remember (punct_to_string p) as sp. destruct sp as [|c [|c2 r]]; try apply (K "symbol `" "`").
  destruct (in_range "A" "Z" c); [apply mentions_add, mentions_self|apply (K "symbol `" "`")].
Qed.
Lemma names_found : forall l a b t, names l (RError E_parse (a ++ token_to_string t ++ b) (loc_update no_location l)) t.
Proof.
  intros l a b t. split; [reflexivity|]. split; [reflexivity|]. cbn [re_text].
  assert (D : (exists d, t = TDir d) \/ forall d, t <> TDir d) by (destruct t; first [left; eexists; reflexivity|right; discriminate]).
  destruct D as [[d ->]|N]; [right; exists d; split; [reflexivity|]|left; split; [exact N|]].
  - exists a, b. reflexivity.
  - apply mentions_add, mentions_end, token_shown, N.
Qed.
Lemma sapp_nil : forall s : string, (s ++ "")%string = s.
Proof. induction s; cbn; congruence. Qed.
Lemma names_found0 : forall l a t, names l (RError E_parse (a ++ token_to_string t) (loc_update no_location l)) t.
Proof. intros l a t. pose proof (names_found l a "" t) as H. rewrite sapp_nil in H. exact H. Qed.
Lemma names_found2 : forall l a b t, names l (RError E_parse (a ++ b ++ ", found " ++ token_to_string t) (loc_update no_location l)) t.
Proof. intros l a b t. pose proof (names_found0 l (a ++ b ++ ", found ") t) as H. rewrite !sapp_assoc in H. exact H. Qed.
Lemma register_shown : forall t, is_register t = true -> exists p, t = TPunct p.
Proof. intros [] H; try discriminate. eauto. Qed.

Lemma near_consume : forall A (Q : rerror -> token -> Prop) l t c m (k : list token -> pres (A * list token)), (forall e t, names l e t -> Q e t) -> local Q k ->
  near_at Q t (fun ts => let^ ts1 := t_consume l c m ts in k ts1).
Proof.
  intros A Q l t c m k W L. destruct (is_char c t) eqn:C.
  - apply (near_ext _ _ _ (fun ts => k (tl ts))); [intros ts; cbn [t_consume]; rewrite C; reflexivity|]. apply near_tl. exact L.
  - apply (near_ext _ _ _ (fun _ => err_at E_parse ("Expected " ++ m ++ ", found " ++ token_to_string t) l)); [intros ts; cbn [t_consume]; rewrite C; reflexivity|].
    apply near_fail, W. apply (names_found2 l "Expected " m t).
Qed.
Lemma local_consume : forall A (Q : rerror -> token -> Prop) l c m (k : list token -> pres (A * list token)), (forall e t, names l e t -> Q e t) -> local Q k ->
  local Q (fun ts => let^ ts1 := t_consume l c m ts in k ts1).
Proof. intros A Q l c m k W L. split; [intros t; apply near_consume; assumption|exact Logic.I]. Qed.
Lemma near_confirm : forall A (Q : rerror -> token -> Prop) l t m (k : list token -> pres (A * list token)), (forall e t, names l e t -> Q e t) -> (tok_at_end t = true -> near_at Q t k) ->
  near_at Q t (fun ts => let^ _ := t_confirm_at_end l m ts in k ts).
Proof.
  intros A Q l t m k W N. apply (near_look _ _ _ _ _ (fun _ => k) (if tok_at_end t then POk tt else err_at E_parse ("Unexpected " ++ token_to_string t ++ " " ++ m) l)).
  - reflexivity.
  - intros e H. destruct (tok_at_end t); [discriminate|]. injection H as <-. apply W. exact (names_found l "Unexpected " (" " ++ m) t).
  - intros b H. destruct (tok_at_end t); [exact (N eq_refl)|discriminate].
Qed.
Lemma near_confirm_suffix : forall A (Q : rerror -> token -> Prop) l t m (k : list token -> pres (A * list token)), (forall e t, names l e t -> Q e t) -> (tok_at_end_or_suffix t = true -> near_at Q t k) ->
  near_at Q t (fun ts => let^ _ := t_confirm_at_end_or_suffix l m ts in k ts).
Proof.
  intros A Q l t m k W N. apply (near_look _ _ _ _ _ (fun _ => k) (if tok_at_end_or_suffix t then POk tt else err_at E_parse ("Unexpected " ++ token_to_string t ++ " " ++ m) l)).
  - reflexivity.
  - intros e H. destruct (tok_at_end_or_suffix t); [discriminate|]. injection H as <-. apply W. exact (names_found l "Unexpected " (" " ++ m) t).
  - intros b H. destruct (tok_at_end_or_suffix t); [exact (N eq_refl)|discriminate].
Qed.
Lemma near_register : forall A (Q : rerror -> token -> Prop) l t al m (k : list token -> pres (A * list token)), (forall e t, names l e t -> Q e t) -> near_at Q t k ->
  near_at Q t (fun ts => let^ _ := t_confirm_legal_register l al m ts in k ts).
Proof.
  intros A Q l t al m k W N. apply (near_look _ _ _ _ _ (fun _ => k) (t_confirm_legal_register l al m [t])).
  - reflexivity.
  - intros e H. unfold t_confirm_legal_register in H. cbn [t_front pbind] in H. destruct (is_register t) eqn:R; [|discriminate]. destruct (existsb _ _); [discriminate|]. injection H as <-.
    apply W. destruct (register_shown _ R) as [p ->]. split; [reflexivity|]. split; [reflexivity|]. left. split; [discriminate|]. cbn [re_text shown].
    apply (mentions_add _ _ "Register "), mentions_end, mentions_self.
  - intros b _. exact N.
Qed.
Lemma near_end : forall A Q t (k : bool -> list token -> pres (A * list token)), near_at Q t (k (tok_at_end t)) -> near_at Q t (fun ts => let^ b := t_at_end ts in k b ts).
Proof. intros A Q t k N. apply (near_ext _ _ _ (k (tok_at_end t))); [reflexivity|exact N]. Qed.
Lemma near_end_suffix : forall A Q t (k : bool -> list token -> pres (A * list token)), near_at Q t (k (tok_at_end_or_suffix t)) -> near_at Q t (fun ts => let^ b := t_at_end_or_suffix ts in k b ts).
Proof. intros A Q t k N. apply (near_ext _ _ _ (k (tok_at_end_or_suffix t))); [reflexivity|exact N]. Qed.
Lemma local_mode : forall l, local (names l) (t_mode l).
Proof.
  intros l. split; [|exact Logic.I]. intros t. destruct t as [s|v ty|m|s|d|p|].
  1:{ destruct (flags_from_name s) as [f|] eqn:F.
    - apply (near_ext _ _ _ (fun ts => (fun ts => POk (f, ts)) (tl ts))); [intros ts; cbn [t_mode tl]; rewrite F; reflexivity|].
      intros ts. split; [|discriminate]. intros a rest H. injection H as <- <-. exists [TIdent s]. split; [reflexivity|]. reflexivity.
    - apply (near_ext _ _ _ (fun _ => err_at E_parse (String """" (s ++ String """" " does not name a flag state")) l)); [intros ts; cbn [t_mode]; rewrite F; reflexivity|].
      apply near_fail. split; [reflexivity|]. split; [reflexivity|]. left. split; [discriminate|]. exists (String """" ""), (String """" " does not name a flag state"). reflexivity. }
  all: match goal with |- near_at _ ?t _ => apply (near_ext _ _ _ (fun _ => err_at E_parse ("Expected mode name, found " ++ token_to_string t) l)); [reflexivity|]; apply near_fail; apply (names_found0 l "Expected mode name, found ") end.
Qed.

(** ** Expressions. *)
Lemma near_take : forall A Q t (a : A), near_at Q t (fun ts => POk (a, tl ts)).
Proof.
  intros A Q t a ts. split; [|discriminate]. intros b rest H. injection H as <- <-. exists [t]. split; [reflexivity|]. reflexivity.
Qed.
Definition scoped (l : location) (f : string -> expr) (ts : list token) : pres (expr * list token) :=
  match ts with
  | [] => PUB UB_oob
  | TIdent s :: ts' => POk (f s, ts')
  | t :: _ => err_at E_parse ("Expected identifier after '::', found " ++ token_to_string t) l
  end.
Lemma local_scoped : forall l f, local (names l) (scoped l f).
Proof.
  intros l f. split; [|exact Logic.I]. intros t. destruct t as [s|v ty|m|s|d|p|]; [apply (near_ext _ _ _ (fun ts => POk (f s, tl ts))); [reflexivity|apply near_take]|..].
  all: match goal with |- near_at _ ?t _ => apply (near_ext _ _ _ (fun _ => err_at E_parse ("Expected identifier after '::', found " ++ token_to_string t) l)); [reflexivity|]; apply near_fail; apply (names_found0 l "Expected identifier after '::', found ") end.
Qed.
Definition named (l : location) (long : bool) (s : string) (ts : list token) : pres (expr * list token) :=
  let^ t1 := t_front ts in
  if is_punct P_scope t1 then scoped l (fun s2 => EId (FullId (Some s) s2) (if long then T_long else T_word)) (tl ts)
  else POk (EId (FullId None s) (if long then T_long else T_word), ts).
Lemma local_named : forall l long s, local (names l) (named l long s).
Proof.
  intros l long s. split; [|exact Logic.I]. intros t. apply near_front. apply (near_cond _ _ _ (is_punct P_scope t)); intros _; [apply near_tl, local_scoped|apply near_ret].
Qed.
Lemma ident_named : forall l long s ts, t_ident l long (TIdent s :: ts) = Some (named l long s ts).
Proof. intros l long s [|t1 ts]; [reflexivity|]. unfold named. cbn [t_ident t_front pbind tl]. destruct (is_punct P_scope t1); reflexivity. Qed.
Lemma ident_scoped : forall l long t ts, is_punct P_scope t = true -> t_ident l long (t :: ts) = Some (scoped l (fun s => EId (FullId (Some "") s) (if long then T_long else T_word)) ts).
Proof. intros l long t ts H. destruct t; try discriminate. cbn [t_ident]. rewrite H. reflexivity. Qed.
Lemma ident_none : forall l long t ts, is_punct P_scope t = false -> tok_ident t = None -> t_ident l long (t :: ts) = None.
Proof. intros l long t ts H I0. destruct t; try reflexivity; [discriminate|]. cbn [t_ident]. rewrite H. reflexivity. Qed.
Lemma ident_cases : forall t, (exists s, t = TIdent s) \/ is_punct P_scope t = true \/ is_punct P_scope t = false /\ tok_ident t = None.
Proof. intros t. destruct (is_punct P_scope t) eqn:P; [right; left; reflexivity|]. destruct t; try (right; right; split; reflexivity). left. eexists. reflexivity. Qed.
Definition at_name (l : location) (ts : list token) : pres (expr * list token) :=
  match t_ident l true ts with
  | Some r => r
  | None => let^ t' := t_front ts in err_at E_parse ("Expected identifier after '@', found " ++ token_to_string t') l
  end.
Lemma local_at_name : forall l, local (names l) (at_name l).
Proof.
  intros l. split; [|exact Logic.I]. intros t. destruct (ident_cases t) as [[s ->]|[P|[P N]]].
  - apply (near_ext _ _ _ (fun ts => named l true s (tl ts))); [intros ts; unfold at_name; rewrite ident_named; reflexivity|]. apply near_tl, local_named.
  - apply (near_ext _ _ _ (fun ts => scoped l (fun s => EId (FullId (Some "") s) T_long) (tl ts))); [intros ts; unfold at_name; rewrite ident_scoped by exact P; reflexivity|]. apply near_tl, local_scoped.
  - apply (near_ext _ _ _ (fun _ => err_at E_parse ("Expected identifier after '@', found " ++ token_to_string t) l)); [intros ts; unfold at_name; rewrite ident_none by assumption; reflexivity|].
    apply near_fail. apply (names_found0 l "Expected identifier after '@', found ").
Qed.
Lemma near_comp : forall l f t, local (names l) (t_expr l f) -> near_at (names l) t (t_comp l (S f)).
Proof.
  intros l f t IH.
  assert (LIT : (exists v ty, t = TLit v ty) \/ forall ts, t_comp l (S f) (t :: ts) = if is_char "@" t then at_name l ts
     else match t_ident l false (t :: ts) with Some r => r | None => if is_char "(" t then let^ (e, ts1) := t_expr l f ts in let^ ts2 := t_consume l ")" "close parenthesis" ts1 in POk (e, ts2)
       else err_at E_parse ("Expected expression, found " ++ token_to_string t) l end).
  { destruct t; try (right; intros ts; reflexivity). left. eauto. }
  destruct LIT as [(v & ty & ->)|EQ]; [apply (near_ext _ _ _ (fun ts => POk (mk_lit v ty, tl ts))); [reflexivity|apply near_take]|].
  destruct (is_char "@" t) eqn:AT; [apply (near_ext _ _ _ (fun ts => at_name l (tl ts))); [exact EQ|]; apply near_tl, local_at_name|].
  destruct (ident_cases t) as [[s ->]|[P|[P N]]].
  - apply (near_ext _ _ _ (fun ts => named l false s (tl ts))); [intros ts; rewrite EQ, ident_named; reflexivity|]. apply near_tl, local_named.
  - apply (near_ext _ _ _ (fun ts => scoped l (fun s => EId (FullId (Some "") s) T_word) (tl ts))); [intros ts; rewrite EQ, ident_scoped by exact P; reflexivity|]. apply near_tl, local_scoped.
  - destruct (is_char "(" t) eqn:C.
    + apply (near_ext _ _ _ (fun ts => (fun ts => let^ (e, ts1) := t_expr l f ts in let^ ts2 := t_consume l ")" "close parenthesis" ts1 in POk (e, ts2)) (tl ts))); [intros ts; rewrite EQ, ident_none by assumption; reflexivity|].
      apply (near_tl _ _ _ (fun ts => let^ (e, ts1) := t_expr l f ts in let^ ts2 := t_consume l ")" "close parenthesis" ts1 in POk (e, ts2))).
      apply (local_bind _ _ _ (t_expr l f) (fun e ts1 => let^ ts2 := t_consume l ")" "close parenthesis" ts1 in POk (e, ts2))); [exact IH|]. intros e. split; [|exact Logic.I]. intros t'. destruct (is_char ")" t') eqn:C'.
      * apply (near_ext _ _ _ (fun ts => POk (e, tl ts))); [intros ts; cbn [t_consume]; rewrite C'; reflexivity|apply near_take].
      * apply (near_ext _ _ _ (fun _ => err_at E_parse ("Expected " ++ "close parenthesis" ++ ", found " ++ token_to_string t') l)); [intros ts; cbn [t_consume]; rewrite C'; reflexivity|].
        apply near_fail. apply (names_found2 l "Expected " "close parenthesis" t').
    + apply (near_ext _ _ _ (fun _ => err_at E_parse ("Expected expression, found " ++ token_to_string t) l)); [intros ts; rewrite EQ, ident_none by assumption; reflexivity|].
      apply near_fail. apply (names_found0 l "Expected expression, found ").
Qed.
Lemma local_fuel : forall A Q (g : list token -> pres (A * list token)), (forall ts, g ts = PFuel) -> local Q g.
Proof. intros A Q g E. split; [|rewrite E; exact Logic.I]. intros t ts. rewrite E. split; discriminate. Qed.
Lemma local_exprs : forall l f,
  local (names l) (t_expr l f) /\ (forall a, local (names l) (t_expr_loop l f a)) /\ local (names l) (t_term l f) /\ (forall a, local (names l) (t_term_loop l f a)) /\
  local (names l) (t_factor l f) /\ local (names l) (t_comp l f).
Proof.
  intros l. induction f as [|f (E & EL & T & TL & F & C)]; [repeat match goal with |- _ /\ _ => split end; intros; apply local_fuel; reflexivity|].
  split; [|split; [|split; [|split; [|split]]]].
  - apply (local_bind _ _ _ (t_term l f) (fun t ts1 => t_expr_loop l f t ts1)); assumption.
  - intros a. split; [|exact Logic.I]. intros t. destruct (tok_at_end t) eqn:AE; [apply (near_ext _ _ _ (fun ts => POk (a, ts))); [intros ts; cbn [t_expr_loop]; rewrite AE; reflexivity|apply near_ret]|].
    destruct (addop t) as [op|] eqn:OP; [|apply (near_ext _ _ _ (fun ts => POk (a, ts))); [intros ts; cbn [t_expr_loop]; rewrite AE, OP; reflexivity|apply near_ret]].
    apply (near_ext _ _ _ (fun ts => (fun ts => let^ (r, ts1) := t_term l f ts in t_expr_loop l f (EBin op a r) ts1) (tl ts))); [intros ts; cbn [t_expr_loop]; rewrite AE, OP; reflexivity|].
    apply (near_tl _ _ _ (fun ts => let^ (r, ts1) := t_term l f ts in t_expr_loop l f (EBin op a r) ts1)), (local_bind _ _ _ (t_term l f) (fun r ts1 => t_expr_loop l f (EBin op a r) ts1)); [exact T|]. intros r. apply EL.
  - apply (local_bind _ _ _ (t_factor l f) (fun t ts1 => t_term_loop l f t ts1)); assumption.
  - intros a. split; [|exact Logic.I]. intros t. destruct (tok_at_end t) eqn:AE; [apply (near_ext _ _ _ (fun ts => POk (a, ts))); [intros ts; cbn [t_term_loop]; rewrite AE; reflexivity|apply near_ret]|].
    destruct (mulop t) as [op|] eqn:OP; [|apply (near_ext _ _ _ (fun ts => POk (a, ts))); [intros ts; cbn [t_term_loop]; rewrite AE, OP; reflexivity|apply near_ret]].
    apply (near_ext _ _ _ (fun ts => (fun ts => let^ (r, ts1) := t_factor l f ts in t_term_loop l f (EBin op a r) ts1) (tl ts))); [intros ts; cbn [t_term_loop]; rewrite AE, OP; reflexivity|].
    apply (near_tl _ _ _ (fun ts => let^ (r, ts1) := t_factor l f ts in t_term_loop l f (EBin op a r) ts1)), (local_bind _ _ _ (t_factor l f) (fun r ts1 => t_term_loop l f (EBin op a r) ts1)); [exact F|]. intros r. apply TL.
  - split; [|exact Logic.I]. intros t. destruct (unaryop t) as [op|] eqn:OP.
    + apply (near_ext _ _ _ (fun ts => (fun ts => let^ (a, ts1) := t_factor l f ts in POk (EUn op a, ts1)) (tl ts))); [intros ts; cbn [t_factor]; rewrite OP; reflexivity|].
      apply (near_tl _ _ _ (fun ts => let^ (a, ts1) := t_factor l f ts in POk (EUn op a, ts1))). split; [intros t'; destruct F as [F _]; intros ts; destruct (F t' ts) as [F1 F2]; split|].
      * intros a rest H. destruct (t_factor l f (t' :: ts)) as [[b ts1]|e|u|] eqn:G; try discriminate. cbn [pbind] in H. injection H as <- <-. destruct (F1 _ _ eq_refl) as (pre & P & K).
        exists pre. split; [exact P|]. intros rest' R. rewrite (K _ R). reflexivity.
      * intros e H. destruct (t_factor l f (t' :: ts)) as [[b ts1]|e1|u|] eqn:G; try discriminate. cbn [pbind] in H. injection H as <-. destruct (F2 _ eq_refl) as (pre & t2 & post & P & QQ & K).
        exists pre, t2, post. split; [exact P|]. split; [exact QQ|]. intros post'. rewrite K. reflexivity.
      * destruct F as [_ S]. destruct (t_factor l f []); try destruct S; exact Logic.I.
    + apply (near_ext _ _ _ (t_comp l f)); [intros ts; cbn [t_factor]; rewrite OP; reflexivity|apply C].
  - split; [|exact Logic.I]. intros t. apply near_comp. exact E.
Qed.

(** ** Fuel. *)
Lemma more_bind : forall A B (r r' : pres A) (k k' : A -> pres B), pbind r k <> PFuel -> (r <> PFuel -> r' = r) -> (forall a, r = POk a -> k a <> PFuel -> k' a = k a) -> pbind r' k' = pbind r k.
Proof. intros A B r r' k k' N R K. destruct r as [a|e|u|]; cbn [pbind] in *; try (rewrite R by discriminate; reflexivity); [|congruence]. rewrite R by discriminate. cbn [pbind]. apply K; [reflexivity|exact N]. Qed.
Lemma expr_loop_S : forall l f a t ts, t_expr_loop l (S f) a (t :: ts) = if tok_at_end t then POk (a, t :: ts) else match addop t with None => POk (a, t :: ts) | Some op => let^ (r, ts1) := t_term l f ts in t_expr_loop l f (EBin op a r) ts1 end.
Proof. reflexivity. Qed.
Lemma term_loop_S : forall l f a t ts, t_term_loop l (S f) a (t :: ts) = if tok_at_end t then POk (a, t :: ts) else match mulop t with None => POk (a, t :: ts) | Some op => let^ (r, ts1) := t_factor l f ts in t_term_loop l f (EBin op a r) ts1 end.
Proof. reflexivity. Qed.
Lemma factor_S : forall l f t ts, t_factor l (S f) (t :: ts) = match unaryop t with Some op => let^ (a, ts1) := t_factor l f ts in POk (EUn op a, ts1) | None => t_comp l f (t :: ts) end.
Proof. reflexivity. Qed.
Lemma comp_S : forall l f t ts, t_comp l (S f) (t :: ts) = match t with TLit v ty => POk (mk_lit v ty, ts) | _ =>
  if is_char "@" t then at_name l ts else match t_ident l false (t :: ts) with Some r => r | None => if is_char "(" t then let^ (e, ts1) := t_expr l f ts in let^ ts2 := t_consume l ")" "close parenthesis" ts1 in POk (e, ts2)
  else err_at E_parse ("Expected expression, found " ++ token_to_string t) l end end.
Proof. intros l f [] ts; reflexivity. Qed.
Lemma more_fuel : forall l f,
  (forall ts, t_expr l f ts <> PFuel -> t_expr l (S f) ts = t_expr l f ts) /\ (forall a ts, t_expr_loop l f a ts <> PFuel -> t_expr_loop l (S f) a ts = t_expr_loop l f a ts) /\
  (forall ts, t_term l f ts <> PFuel -> t_term l (S f) ts = t_term l f ts) /\ (forall a ts, t_term_loop l f a ts <> PFuel -> t_term_loop l (S f) a ts = t_term_loop l f a ts) /\
  (forall ts, t_factor l f ts <> PFuel -> t_factor l (S f) ts = t_factor l f ts) /\ (forall ts, t_comp l f ts <> PFuel -> t_comp l (S f) ts = t_comp l f ts).
Proof.
  intros l. induction f as [|f (E & EL & T & TL & F & C)]; [repeat split; intros; exfalso; match goal with H : _ <> PFuel |- _ => apply H end; reflexivity|].
  split; [|split; [|split; [|split; [|split]]]].
  - intros ts N. change (t_expr l (S (S f)) ts) with (let^ (t, ts1) := t_term l (S f) ts in t_expr_loop l (S f) t ts1). change (t_expr l (S f) ts) with (let^ (t, ts1) := t_term l f ts in t_expr_loop l f t ts1) in *.
    apply more_bind; [exact N|apply T|]. intros [a ts1] _. apply EL.
  - intros a [|t ts] N; [reflexivity|]. rewrite expr_loop_S in N |- *. rewrite expr_loop_S. destruct (tok_at_end t); [reflexivity|]. destruct (addop t); [|reflexivity].
    apply more_bind; [exact N|apply T|]. intros [r ts1] _. apply EL.
  - intros ts N. change (t_term l (S (S f)) ts) with (let^ (t, ts1) := t_factor l (S f) ts in t_term_loop l (S f) t ts1). change (t_term l (S f) ts) with (let^ (t, ts1) := t_factor l f ts in t_term_loop l f t ts1) in *.
    apply more_bind; [exact N|apply F|]. intros [a ts1] _. apply TL.
  - intros a [|t ts] N; [reflexivity|]. rewrite term_loop_S in N |- *. rewrite term_loop_S. destruct (tok_at_end t); [reflexivity|]. destruct (mulop t); [|reflexivity].
    apply more_bind; [exact N|apply F|]. intros [r ts1] _. apply TL.
  - intros [|t ts] N; [reflexivity|]. rewrite factor_S in N |- *. rewrite factor_S. destruct (unaryop t); [|apply C; exact N].
    apply more_bind; [exact N|apply F|]. reflexivity.
  - intros [|t ts] N; [reflexivity|]. rewrite comp_S in N |- *. rewrite comp_S. destruct t; try reflexivity.
    all: destruct (is_char "@" _); [reflexivity|]; destruct (t_ident _ _ _); [reflexivity|]; destruct (is_char "(" _); [|reflexivity]; apply more_bind; [exact N|apply E|reflexivity].
Qed.
Lemma shorter : forall (r : pres (expr * list token)) r' ts a ts', bare r = r' -> fine over1 ts r' -> r = POk (a, ts') -> (List.length ts' < List.length ts)%nat.
Proof. intros r r' ts a ts' E F ->. cbn in E. subst r'. cbn in F. apply over1_len. exact F. Qed.
Lemma bind_fuel : forall A B (r : pres A) (k : A -> pres B), r <> PFuel -> (forall a, r = POk a -> k a <> PFuel) -> pbind r k <> PFuel.
Proof. intros A B [a|e|u|] k R K; cbn; try discriminate; [apply K; reflexivity|congruence]. Qed.
Lemma enough_fuel : forall l f,
  (forall ts, (6 * List.length ts + 4 <= f)%nat -> t_expr l f ts <> PFuel) /\ (forall a ts, (6 * List.length ts + 1 <= f)%nat -> t_expr_loop l f a ts <> PFuel) /\
  (forall ts, (6 * List.length ts + 3 <= f)%nat -> t_term l f ts <> PFuel) /\ (forall a ts, (6 * List.length ts + 1 <= f)%nat -> t_term_loop l f a ts <> PFuel) /\
  (forall ts, (6 * List.length ts + 2 <= f)%nat -> t_factor l f ts <> PFuel) /\ (forall ts, (6 * List.length ts + 1 <= f)%nat -> t_comp l f ts <> PFuel).
Proof.
  intros l. induction f as [|f (E & EL & T & TL & F & C)]; [repeat split; intros; exfalso; lia|].
  destruct (bare_exprs l f) as (_ & _ & BT & _ & BF & _). destruct (exprs_fine f) as (_ & _ & FT & _ & FF & _).
  split; [|split; [|split; [|split; [|split]]]].
  - intros ts L. cbn [t_expr]. apply bind_fuel; [apply T; lia|]. intros [a ts1] H. pose proof (shorter _ _ _ _ _ (BT ts) (FT ts ltac:(lia)) H). apply EL. lia.
  - intros a [|t ts] L; cbn [t_expr_loop]; [discriminate|]. cbn [List.length] in L. destruct (tok_at_end t); [discriminate|]. destruct (addop t); [|discriminate].
    apply bind_fuel; [apply T; lia|]. intros [r ts1] H. pose proof (shorter _ _ _ _ _ (BT ts) (FT ts ltac:(lia)) H). apply EL. lia.
  - intros ts L. cbn [t_term]. apply bind_fuel; [apply F; lia|]. intros [a ts1] H. pose proof (shorter _ _ _ _ _ (BF ts) (FF ts ltac:(lia)) H). apply TL. lia.
  - intros a [|t ts] L; cbn [t_term_loop]; [discriminate|]. cbn [List.length] in L. destruct (tok_at_end t); [discriminate|]. destruct (mulop t); [|discriminate].
    apply bind_fuel; [apply F; lia|]. intros [r ts1] H. pose proof (shorter _ _ _ _ _ (BF ts) (FF ts ltac:(lia)) H). apply TL. lia.
  - intros [|t ts] L; cbn [t_factor]; [discriminate|]. cbn [List.length] in L. destruct (unaryop t); [|apply C; cbn [List.length]; lia]. apply bind_fuel; [apply F; lia|]. intros [r ts1] _. discriminate.
  - intros [|t ts] L; cbn [t_comp]; [discriminate|]. cbn [List.length] in L.
    assert (I0 : forall long ts, t_ident l long ts <> Some PFuel).
    { intros long ts0. destruct ts0 as [|t0 ts0]; [discriminate|]. destruct t0; cbn [t_ident is_punct]; try discriminate.
      - destruct ts0 as [|t1 ts0]; [discriminate|]. destruct (is_punct P_scope t1); [|discriminate]. destruct ts0 as [|[] ?]; discriminate.
      - destruct (_ =? _); [|discriminate]. destruct ts0 as [|[] ?]; discriminate. }
    pose proof (I0 true ts) as I1. pose proof (I0 false (t :: ts)) as I2.
    assert (G : (if is_char "@" t then match t_ident l true ts with Some r => r | None => let^ t' := t_front ts in err_at E_parse ("Expected identifier after '@', found " ++ token_to_string t') l end
       else match t_ident l false (t :: ts) with Some r => r | None => if is_char "(" t then let^ (e, ts1) := t_expr l f ts in let^ ts2 := t_consume l ")" "close parenthesis" ts1 in POk (e, ts2)
         else err_at E_parse ("Expected expression, found " ++ token_to_string t) l end) <> PFuel).
    { destruct (is_char "@" t); [destruct (t_ident l true ts); [congruence|]; destruct ts; discriminate|]. destruct (t_ident l false (t :: ts)); [congruence|].
      destruct (is_char "(" t); [|discriminate]. apply bind_fuel; [apply E; lia|]. intros [e ts1] _. apply bind_fuel; [|discriminate]. destruct ts1; cbn [t_consume]; [discriminate|]. destruct (is_char _ _); discriminate. }
    destruct t; try exact G. discriminate.
Qed.
Lemma more_any : forall A (g : nat -> pres A) f k, (forall f, g f <> PFuel -> g (S f) = g f) -> g f <> PFuel -> g (k + f)%nat = g f.
Proof. intros A g f k M N. induction k as [|k IH]; [reflexivity|]. cbn [Nat.add]. rewrite M; [exact IH|]. rewrite IH. exact N. Qed.
(** A function given enough fuel by its input is as local as it is at every amount of fuel. *)
Lemma local_enough : forall A Q (g : nat -> list token -> pres (A * list token)) (n : list token -> nat),
  (forall f ts, g f ts <> PFuel -> g (S f) ts = g f ts) -> (forall ts, g (n ts) ts <> PFuel) -> (forall f, local Q (g f)) -> local Q (fun ts => g (n ts) ts).
Proof.
  intros A Q g n M E L.
  assert (EQ : forall f ts, g f ts <> PFuel -> g (n ts) ts = g f ts).
  { intros f ts N. rewrite <- (more_any _ (fun f => g f ts) f (n ts) (fun f => M f ts) N). rewrite Nat.add_comm. symmetry. apply (more_any _ (fun f => g f ts) (n ts) f (fun f => M f ts) (E ts)). }
  split; [|destruct (L (n [])) as [_ S]; exact S]. intros t ts. destruct (L (n (t :: ts))) as [N _]. destruct (N t ts) as [N1 N2]. split.
  - intros a rest H. destruct (N1 _ _ H) as (pre & P & K). exists pre. split; [exact P|]. intros rest' R. rewrite (EQ (n (t :: ts))); rewrite (K _ R); [reflexivity|discriminate].
  - intros e H. destruct (N2 _ H) as (pre & t' & post & P & QQ & K). exists pre, t', post. split; [exact P|]. split; [exact QQ|]. intros post'. rewrite (EQ (n (t :: ts))); rewrite K; [reflexivity|discriminate].
Qed.
Lemma local_expr : forall l, local (names l) (t_parse_expr l).
Proof.
  intros l. apply (local_enough _ _ (t_expr l) (fun ts => (6 * List.length ts + 6)%nat)); [intros f; apply more_fuel| |intros f; apply local_exprs].
  intros ts. apply enough_fuel. lia.
Qed.

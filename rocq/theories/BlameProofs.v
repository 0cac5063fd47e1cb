(** A message about a line of source: what it shows, and that it depends on nothing behind that. *)
From Coq Require Import Lia.
From Verif Require Import BaseProofs ModelNumeric ModelMnemonic ModelExpr ModelAMode ModelOpcode
  ModelState ModelInstr ModelToken ModelStatement ModelParse ModelAddress ModelMap ModelRom ModelTools ModelLocation ModelRomText ModelInteractive
  ModelParseText SpecText SpecParseText TokenProofs ParseProofs ParseTextProofs LocalProofs LocalLineProofs.
Open Scope string_scope.
Open Scope list_scope.
Open Scope Z_scope.

(** ** Directives end with the line. *)
Definition ended_at {A} (r : pres (A * list token)) : Prop := forall a rest, r = POk (a, rest) -> match rest with t :: _ => tok_at_end t = true | [] => False end.
Lemma at_bind : forall A B (r : pres A) (k : A -> pres (B * list token)), (forall a, r = POk a -> ended_at (k a)) -> ended_at (pbind r k).
Proof. intros A B [a|e|u|] k H b rest X; try discriminate. exact (H a eq_refl b rest X). Qed.
Lemma at_confirm : forall A l m ts (a : A), ended_at (let^ _ := t_confirm_at_end l m ts in POk (a, ts)).
Proof. intros A l m [|t ts] a b rest X; [discriminate|]. unfold t_confirm_at_end in X. cbn [t_front pbind] in X. destruct (tok_at_end t) eqn:T; [|discriminate]. injection X as _ <-. exact T. Qed.
Lemma at_list : forall l f acc ts, ended_at (t_list l f acc ts).
Proof.
  intros l. induction f as [|f IH]; intros acc ts; [intros a rest X; discriminate|]. cbn [t_list]. apply at_bind. intros [e ts1] _. cbv zeta. apply at_bind. intros b B.
  destruct b; [|apply at_bind; intros ts2 _; apply IH]. intros a rest X. injection X as _ <-. destruct ts1 as [|t ts1]; [discriminate|]. injection B as B. exact B.
Qed.
Lemma at_map : forall A B (r : pres (A * list token)) (k : A -> B), ended_at r -> ended_at (let^ (a, ts) := r in POk (k a, ts)).
Proof. intros A B [[a ts]|e|u|] k H b rest X; try discriminate. injection X as _ <-. exact (H a ts eq_refl). Qed.
Lemma at_mode_part : forall l d a ts, ended_at (t_mode_part l d a ts).
Proof. intros l d a ts. unfold t_mode_part. apply at_bind. intros [f ts1] _. apply at_bind. intros _ _. apply at_bind. intros [rc ts2] _. apply at_confirm. Qed.
Lemma at_directive : forall l d ts, ended_at (t_parse_directive l (TDir d :: ts)).
Proof.
  intros l d ts. cbn [t_parse_directive]. cbv zeta.
  destruct (directive_type_by_name d); repeat first [exact (at_map _ _ _ (fun l0 => Directive d None default_flags RC_default l0) (at_list _ _ _ _))|apply at_confirm|apply at_mode_part|apply at_bind; intros [? ?] _|match goal with |- ended_at (if ?b then _ else _) => destruct b; [intros ? ? X; discriminate|] end].
Qed.

(** ** What the two kinds of statement say. *)
Lemma names_line : forall l pre t e, names l e t -> about_line pre t (re_kind e) (re_text e).
Proof.
  intros l pre t e (K & _ & H). rewrite K. destruct H as [[N M]|(d & -> & M)].
  - exact (about_token _ _ _ N M).
  - exact (about_hidden _ _ d _ eq_refl M).
Qed.
Lemma refuses_line : forall l m pre t e, In (TMnem m) pre -> refuses l m e t -> about_line pre t (re_kind e) (re_text e).
Proof. intros l m pre t e I [H|[K M]]; [exact (names_line _ _ _ _ H)|exact (about_instruction _ _ m _ _ I K M)]. Qed.
Lemma objects_line : forall l d pre t e, In (TDir d) pre -> objects l d e t -> about_line pre t (re_kind e) (re_text e).
Proof. intros l d pre t e I [H|[K M]]; [exact (names_line _ _ _ _ H)|rewrite K; exact (about_directive _ _ d _ I M)]. Qed.
Lemma line_app : forall p pre t k text, about_line pre t k text -> about_line (p ++ pre) t k text.
Proof.
  intros p pre t k text H. destruct H as [text N M|d text E M|m k text I K M|d text I M|E H].
  - exact (about_token _ _ _ N M).
  - exact (about_hidden _ _ d _ E M).
  - exact (about_instruction _ _ m _ _ (in_or_app _ _ _ (or_intror I)) K M).
  - exact (about_directive _ _ d _ (in_or_app _ _ _ (or_intror I)) M).
  - apply about_rest; [exact E|]. destruct H as [H|H]; [left|right]; apply in_or_app; right; exact H.
Qed.

(** ** Labels. *)
Definition after_export (ex : bool) (ts : list token) : pres (list parsed * list token * bool) :=
  match ts with
  | TIdent s :: ts' =>
      match ts' with
      | t' :: ts'' => if is_char ":" t' then POk ([PLabel s ex], ts'', true) else POk ([PLabel s ex], ts', false)
      | [] => POk ([PLabel s ex], ts', false)
      end
  | _ => POk ([], ts, false)
  end.
Lemma after_near : forall ex t ts lab rest c, after_export ex (t :: ts) = POk (lab, rest, c) ->
  exists pre, t :: ts = pre ++ rest /\ forall rest', hd_error rest' = hd_error rest -> after_export ex (pre ++ rest') = POk (lab, rest', c) /\ (exists ts', pre ++ rest' = t :: ts').
Proof.
  intros ex t ts lab rest c H.
  assert (K : forall t, after_export ex (t :: ts) = POk ([], t :: ts, false) -> (forall r, after_export ex (t :: r) = POk ([], t :: r, false)) -> after_export ex (t :: ts) = POk (lab, rest, c) ->
     exists pre, t :: ts = pre ++ rest /\ forall rest', hd_error rest' = hd_error rest -> after_export ex (pre ++ rest') = POk (lab, rest', c) /\ (exists ts', pre ++ rest' = t :: ts')).
  { clear t H. intros t E F H. rewrite E in H. injection H as <- <- <-. exists []. split; [reflexivity|]. intros [|x r] R; [discriminate|]. injection R as ->. split; [apply F|exists r; reflexivity]. }
  destruct t as [s|v ty|m|s|d|p|]; try (apply K; [reflexivity|reflexivity|exact H]). clear K. cbn [after_export] in H.
  destruct ts as [|t' ts]; [injection H as <- <- <-; exists [TIdent s]; split; [reflexivity|]; intros [|x r] R; [split; [reflexivity|exists []; reflexivity]|discriminate]|].
  destruct (is_char ":" t') eqn:C; injection H as <- <- <-.
  - exists [TIdent s; t']. split; [reflexivity|]. intros r _. cbn [app after_export]. rewrite C. split; [reflexivity|]. exists (t' :: r). reflexivity.
  - exists [TIdent s]. split; [reflexivity|]. intros [|x r] R; [discriminate|]. injection R as ->. cbn [app after_export]. rewrite C. split; [reflexivity|]. exists (t' :: r). reflexivity.
Qed.
Lemma after_fine : forall ex ts e, after_export ex ts <> PErr e.
Proof. intros ex [|t ts] e; [discriminate|]. destruct t; try discriminate. cbn [after_export]. destruct ts as [|t ts]; [discriminate|]. destruct (is_char ":" t); discriminate. Qed.
Lemma label_cases : forall l t ts, t_label l (t :: ts) =
  if is_punct P_export t then let^ t' := t_front ts in match tok_ident t' with None => err_at E_parse ("Expected label name after `export` keyword but found " ++ token_to_string t') l | Some _ => after_export true ts end
  else after_export false (t :: ts).
Proof. intros l t ts. unfold t_label. cbn [t_front pbind tl]. destruct (is_punct P_export t); [|reflexivity]. destruct ts as [|t' ts]; [reflexivity|]. cbn [t_front pbind]. destruct (tok_ident t'); reflexivity. Qed.
Lemma label_near : forall l t ts,
  (forall lab rest c, t_label l (t :: ts) = POk (lab, rest, c) -> exists pre, t :: ts = pre ++ rest /\ forall rest', hd_error rest' = hd_error rest -> t_label l (pre ++ rest') = POk (lab, rest', c)) /\
  (forall e, t_label l (t :: ts) = PErr e -> exists t' post, ts = t' :: post /\ names l e t' /\ forall post', t_label l (t :: t' :: post') = PErr e).
Proof.
  intros l t ts. rewrite label_cases. destruct (is_punct P_export t) eqn:X.
  - destruct ts as [|t' ts]; [split; intros; discriminate|]. cbn [t_front pbind]. destruct (tok_ident t') as [s|] eqn:I.
    + split; [|intros e H; exfalso; exact (after_fine _ _ _ H)].
      intros lab rest c H. destruct (after_near _ _ _ _ _ _ H) as (pre & P & Q). exists (t :: pre). split; [rewrite P; reflexivity|]. intros r R. destruct (Q r R) as [Q1 [ts' Q2]].
      cbn [app]. rewrite label_cases, X, Q2. cbn [t_front pbind]. rewrite I. rewrite Q2 in Q1. exact Q1.
    + split; [intros; discriminate|]. intros e H. injection H as <-. exists t', ts. split; [reflexivity|]. split; [apply (names_found0 l "Expected label name after `export` keyword but found ")|].
      intros post'. rewrite label_cases, X. cbn [t_front pbind]. rewrite I. reflexivity.
  - split; [|intros e H; exfalso; exact (after_fine _ _ _ H)].
    intros lab rest c H. destruct (after_near _ _ _ _ _ _ H) as (pre & P & Q). exists pre. split; [exact P|]. intros r R. destruct (Q r R) as [Q1 [ts' Q2]].
    rewrite Q2 in Q1 |- *. rewrite label_cases, X. exact Q1.
Qed.

(** ** What is left behind an instruction. *)
Lemma punct_only : forall p t, is_punct p t = true -> t = TPunct p.
Proof. intros p [s|v ty|m|s|d|q|] H; try discriminate. cbn [is_punct] in H. apply Z.eqb_eq in H. congruence. Qed.
Lemma convention_left : forall l t ts rc rest, tok_at_end_or_suffix t = true -> t_return_convention l (t :: ts) = POk (rc, rest) ->
  (rest = t :: ts /\ tok_at_end t = true) \/ exists used, t :: ts = used ++ rest /\ (In (TPunct P_noreturn) used \/ In (TPunct P_yields) used).
Proof.
  intros l t ts rc rest E H. unfold t_return_convention in H. cbn [t_front pbind tl] in H. destruct (is_punct P_noreturn t) eqn:NR.
  - injection H as _ <-. right. exists [t]. split; [reflexivity|]. left. left. apply punct_only. exact NR.
  - destruct (is_punct P_yields t) eqn:Y.
    + right. assert (T : t = TPunct P_yields) by (apply punct_only; exact Y). subst t.
      destruct (t_mode l ts) as [[f ts1]|e|u|] eqn:M; try discriminate. injection H as _ <-. destruct (local_mode l) as [L S]. destruct ts as [|t1 ts]; [discriminate|].
      destruct (proj1 (L t1 ts) _ _ M) as (pre & P & _). exists (TPunct P_yields :: pre). split; [rewrite P; reflexivity|]. right. left. reflexivity.
    + injection H as _ <-. left. split; [reflexivity|]. unfold tok_at_end_or_suffix in E. rewrite NR, Y, !Bool.orb_false_r in E. exact E.
Qed.
Lemma instruction_left : forall l m ts i t rest, t_parse_instruction l (TMnem m :: ts) = POk (i, t :: rest) -> tok_at_end t = false ->
  exists used, ts = used ++ t :: rest /\ (In (TPunct P_noreturn) used \/ In (TPunct P_yields) used).
Proof.
  intros l m ts i t rest H T. unfold t_parse_instruction in H. destruct (t_parse_instruction_core l (TMnem m :: ts)) as [[i1 ts1]|e|u|] eqn:C; try discriminate. cbn [pbind] in H.
  destruct (t_return_convention l ts1) as [[rc ts2]|e|u|] eqn:R; try discriminate. cbn [pbind] in H. assert (ts2 = t :: rest) by (destruct (_ && _); [discriminate|]; injection H as _ H; exact H). subst ts2.
  pose proof (ends_core _ _ _ _ _ C) as HD. destruct ts1 as [|t1 ts1]; [contradiction|]. cbn [headed] in HD.
  destruct ts as [|t0 ts]; [discriminate|]. destruct (local_core l m) as [L _]. destruct (proj1 (L t0 ts) _ _ C) as (pre & P & _).
  destruct (convention_left _ _ _ _ _ HD R) as [[E A]|(used & U & I)].
  - injection E as <- _. congruence.
  - exists (pre ++ used). rewrite P, U, app_assoc. split; [reflexivity|]. destruct I as [I|I]; [left|right]; apply in_or_app; right; exact I.
Qed.

(** ** Lines. *)
Lemma loop_S : forall l f acc ts, ts <> [] -> t_parse_loop l (S f) acc ts = (let^ (lab, ts, cont) := t_label l ts in
          let acc := (acc ++ lab)%list in if cont then t_parse_loop l f acc ts else let^ t := t_front ts in
            if tok_at_end t then POk acc
            else if is_char "{" t || is_char "}" t then t_parse_loop l f (acc ++ [PStmt (SDir (Directive (if is_char "{" t then D_begin else D_end) None default_flags RC_default []))])%list (tl ts)
            else match tok_dir t with
            | Some _ => let^ (d, ts) := t_parse_directive l ts in let^ b := t_at_end ts in
                if b then t_parse_loop l f (acc ++ [PStmt (SDir d)])%list (tl ts) else PErr (RError E_logic "logic error: ParseDirective() did not read to a line end" no_location)
            | None => match tok_mnem t with
                | None => err_at E_parse ("Expected mnemonic or directive but found " ++ token_to_string t) l
                | Some _ => let^ (i, ts) := t_parse_instruction l ts in let^ b := t_at_end ts in
                    if b then t_parse_loop l f (acc ++ [PStmt (SInstr i)])%list (tl ts) else PErr (RError E_logic "logic error: ParseInstruction() did not read to a line end" no_location)
                end end).
Proof. intros l f a [|x y] N; [congruence|reflexivity]. Qed.
Lemma loop_near : forall l f acc ts e, t_parse_loop l f acc ts = PErr e ->
  exists pre t post, ts = pre ++ t :: post /\ about_line pre t (re_kind e) (re_text e) /\ forall post', t_parse_loop l f acc (pre ++ t :: post') = PErr e.
Proof.
  intros l. induction f as [|f IH]; intros acc ts e H; [discriminate|]. destruct ts as [|t0 ts0]; [discriminate|].
  pose proof (loop_S l f) as STEP.
  rewrite STEP in H by discriminate.
  destruct (label_near l t0 ts0) as [L1 L2]. destruct (t_label l (t0 :: ts0)) as [[[lab ts1] c]|e1|u|] eqn:LB; try discriminate; cbn [pbind] in H.
  2: { injection H as <-. destruct (L2 _ eq_refl) as (t' & post & -> & N & K). exists [t0], t', post. split; [reflexivity|]. split; [exact (names_line _ _ _ _ N)|].
       intros post'. rewrite STEP by discriminate. cbn [app]. rewrite K. reflexivity. }
  destruct (L1 _ _ _ eq_refl) as (p & P & K). clear L1 L2. rewrite P.
  (* whatever part of the rest is kept together with the token in question is found again *)
  assert (UP : forall pre t post, ts1 = pre ++ t :: post -> about_line pre t (re_kind e) (re_text e) ->
     (forall post', (let acc := (acc ++ lab)%list in if c then t_parse_loop l f acc (pre ++ t :: post') else let^ t1 := t_front (pre ++ t :: post') in
            if tok_at_end t1 then POk acc
            else if is_char "{" t1 || is_char "}" t1 then t_parse_loop l f (acc ++ [PStmt (SDir (Directive (if is_char "{" t1 then D_begin else D_end) None default_flags RC_default []))])%list (tl (pre ++ t :: post'))
            else match tok_dir t1 with
            | Some _ => let^ (d, ts) := t_parse_directive l (pre ++ t :: post') in let^ b := t_at_end ts in
                if b then t_parse_loop l f (acc ++ [PStmt (SDir d)])%list (tl ts) else PErr (RError E_logic "logic error: ParseDirective() did not read to a line end" no_location)
            | None => match tok_mnem t1 with
                | None => err_at E_parse ("Expected mnemonic or directive but found " ++ token_to_string t1) l
                | Some _ => let^ (i, ts) := t_parse_instruction l (pre ++ t :: post') in let^ b := t_at_end ts in
                    if b then t_parse_loop l f (acc ++ [PStmt (SInstr i)])%list (tl ts) else PErr (RError E_logic "logic error: ParseInstruction() did not read to a line end" no_location)
                end end) = PErr e) ->
     exists pre t post, p ++ ts1 = pre ++ t :: post /\ about_line pre t (re_kind e) (re_text e) /\ forall post', t_parse_loop l (S f) acc (pre ++ t :: post') = PErr e).
  { intros pre t post E A R. exists (p ++ pre), t, post. rewrite E, app_assoc. split; [reflexivity|]. split; [apply line_app; exact A|]. intros post'. rewrite <- app_assoc.
    rewrite STEP by (destruct p; destruct pre; discriminate). rewrite (K (pre ++ t :: post')) by (rewrite E; destruct pre; reflexivity). exact (R post'). }
  cbv zeta in H. destruct c.
  { destruct (IH _ _ _ H) as (pre & t & post & E & A & R). exact (UP pre t post E A R). }
  destruct ts1 as [|t1 ts1]; [discriminate|]. cbn [t_front pbind] in H. destruct (tok_at_end t1) eqn:T1; [discriminate|].
  destruct (is_char "{" t1 || is_char "}" t1) eqn:BR.
  { cbn [tl] in H. destruct (IH _ _ _ H) as (pre & t & post & E & A & R). apply (UP (t1 :: pre) t post); [rewrite E; reflexivity|exact (line_app [t1] _ _ _ _ A)|].
    intros post'. cbv zeta. cbn [app t_front pbind tl]. rewrite T1, BR. apply R. }
  destruct (tok_dir t1) as [d|] eqn:TD.
  { assert (t1 = TDir d) by (destruct t1; try discriminate; injection TD as ->; reflexivity). subst t1.
    destruct (t_parse_directive l (TDir d :: ts1)) as [[dv rest]|e1|u|] eqn:DR; try discriminate; cbn [pbind] in H; (destruct ts1 as [|t2 ts2]; [exfalso; destruct (local_directive l d) as [_ ST]; cbv beta in ST; rewrite DR in ST; exact ST|]); destruct (local_directive l d) as [LL _]; destruct (LL t2 ts2) as [N1 N2]; cbv beta in N1, N2.
    - pose proof (at_directive _ _ _ _ _ DR) as EN. destruct rest as [|t3 rest]; [contradiction|]. unfold t_at_end in H. cbn [t_front pbind] in H. rewrite EN in H. cbn [tl] in H.
      destruct (N1 _ _ DR) as (q & Q & NK). destruct (IH _ _ _ H) as (pre & t & post & E & A & R).
      apply (UP ((TDir d :: q) ++ t3 :: pre) t post).
      + rewrite <- app_assoc. cbn [app]. rewrite Q, E. reflexivity.
      + apply line_app. exact (line_app [t3] _ _ _ _ A).
      + intros post'. cbv zeta. rewrite <- app_assoc. cbn [app t_front pbind]. rewrite T1, BR, TD. rewrite (NK (t3 :: pre ++ t :: post')) by reflexivity. cbn [pbind]. unfold t_at_end. cbn [t_front pbind]. rewrite EN. cbn [tl]. apply R.
    - injection H as <-. destruct (N2 _ DR) as (q & t & post & Q & O & NK). apply (UP (TDir d :: q) t post).
      + rewrite Q. reflexivity.
      + exact (objects_line _ d (TDir d :: q) _ _ (or_introl eq_refl) O).
      + intros post'. cbv zeta. cbn [app t_front pbind]. rewrite T1, BR, TD, NK. reflexivity. }
  destruct (tok_mnem t1) as [m|] eqn:TM.
  2: { injection H as <-. apply (UP [] t1 ts1); [reflexivity|exact (names_line _ _ _ _ (names_found0 l "Expected mnemonic or directive but found " t1))|].
       intros post'. cbv zeta. cbn [app t_front pbind]. rewrite T1, BR, TD, TM. reflexivity. }
  assert (t1 = TMnem m) by (destruct t1; try discriminate; injection TM as ->; reflexivity). subst t1.
  destruct (t_parse_instruction l (TMnem m :: ts1)) as [[iv rest]|e1|u|] eqn:DR; try discriminate; cbn [pbind] in H; (destruct ts1 as [|t2 ts2]; [exfalso; destruct (local_instruction l m) as [_ ST]; cbv beta in ST; rewrite DR in ST; exact ST|]); destruct (local_instruction l m) as [LL _]; destruct (LL t2 ts2) as [N1 N2]; cbv beta in N1, N2.
  - destruct rest as [|t3 rest]; [discriminate|]. unfold t_at_end in H. cbn [t_front pbind] in H. destruct (N1 _ _ DR) as (q & Q & NK). destruct (tok_at_end t3) eqn:EN.
    + cbn [tl] in H. destruct (IH _ _ _ H) as (pre & t & post & E & A & R).
      apply (UP ((TMnem m :: q) ++ t3 :: pre) t post).
      * rewrite <- app_assoc. cbn [app]. rewrite Q, E. reflexivity.
      * apply line_app. exact (line_app [t3] _ _ _ _ A).
      * intros post'. cbv zeta. rewrite <- app_assoc. cbn [app t_front pbind]. rewrite T1, BR, TD, TM. rewrite (NK (t3 :: pre ++ t :: post')) by reflexivity. cbn [pbind]. unfold t_at_end. cbn [t_front pbind]. rewrite EN. cbn [tl]. apply R.
    + injection H as <-. destruct (instruction_left _ _ _ _ _ _ DR EN) as (used & U & I). assert (q = used) by (rewrite Q in U; exact (app_inv_tail _ _ _ U)). subst used.
      apply (UP (TMnem m :: q) t3 rest).
      * rewrite Q. reflexivity.
      * cbn [re_kind re_text]. apply about_rest; [exact EN|]. destruct I as [I|I]; [left|right]; right; exact I.
      * intros post'. cbv zeta. cbn [app t_front pbind]. rewrite T1, BR, TD, TM. rewrite (NK (t3 :: post')) by reflexivity. cbn [pbind]. unfold t_at_end. cbn [t_front pbind]. rewrite EN. reflexivity.
  - injection H as <-. destruct (N2 _ DR) as (q & t & post & Q & O & NK). apply (UP (TMnem m :: q) t post).
    + rewrite Q. reflexivity.
    + exact (refuses_line _ m (TMnem m :: q) _ _ (or_introl eq_refl) O).
    + intros post'. cbv zeta. cbn [app t_front pbind]. rewrite T1, BR, TD, TM, NK. reflexivity.
Qed.
Lemma loop_more : forall l f acc ts, t_parse_loop l f acc ts <> PFuel -> t_parse_loop l (S f) acc ts = t_parse_loop l f acc ts.
Proof.
  intros l. induction f as [|f IH]; intros acc ts N; [exfalso; apply N; reflexivity|]. destruct ts as [|t0 ts0]; [reflexivity|].
  rewrite (loop_S l f) in N |- * by discriminate. rewrite (loop_S l (S f)) by discriminate.
  apply more_bind; [exact N|reflexivity|]. intros [[lab ts] c] _ N1. cbv zeta in N1 |- *. destruct c; [apply IH; exact N1|].
  apply more_bind; [exact N1|reflexivity|]. intros t _ N2. destruct (tok_at_end t); [reflexivity|]. destruct (_ || _); [apply IH; exact N2|].
  destruct (tok_dir t).
  - apply more_bind; [exact N2|reflexivity|]. intros [d1 ts1] _ N3. apply more_bind; [exact N3|reflexivity|]. intros [] _ N4; [apply IH; exact N4|reflexivity].
  - destruct (tok_mnem t); [|reflexivity]. apply more_bind; [exact N2|reflexivity|]. intros [d1 ts1] _ N3. apply more_bind; [exact N3|reflexivity|]. intros [] _ N4; [apply IH; exact N4|reflexivity].
Qed.
Lemma parse_near : forall l ts e, t_parse l ts = PErr e ->
  exists pre t post, ts = pre ++ t :: post /\ about_line pre t (re_kind e) (re_text e) /\ forall post', ended (pre ++ t :: post') -> t_parse l (pre ++ t :: post') = PErr e.
Proof.
  intros l ts e H. destruct (loop_near _ _ _ _ _ H) as (pre & t & post & E & A & R). exists pre, t, post. split; [exact E|]. split; [exact A|]. intros post' EN.
  assert (N : t_parse l (pre ++ t :: post') <> PFuel).
  { intros X. pose proof (bare_parse l (pre ++ t :: post')) as B. rewrite X in B. cbn [bare] in B. pose proof (parse_loop_ok _ [] _ (or_introl EN) (PeanoNat.Nat.lt_succ_diag_r (List.length (pre ++ t :: post')))) as O.
    unfold parse in B. rewrite <- B in O. exact O. }
  unfold t_parse in N |- *. pose proof (any_fuel _ (fun f => t_parse_loop l f []) (S (List.length (pre ++ t :: post'))) (S (List.length (pre ++ t :: post')) + S (List.length ts))%nat _ (fun f ts => loop_more l f [] ts) N ltac:(lia)) as A1.
  assert (N' : t_parse_loop l (S (List.length ts)) [] (pre ++ t :: post') <> PFuel) by (rewrite R; discriminate).
  pose proof (any_fuel _ (fun f => t_parse_loop l f []) (S (List.length ts)) (S (List.length (pre ++ t :: post')) + S (List.length ts))%nat _ (fun f ts => loop_more l f [] ts) N' ltac:(lia)) as A2.
  cbv beta in A1, A2. rewrite <- A1, A2. apply R.
Qed.

(** ** Lines that cannot be split into tokens. *)
Lemma next_says : forall l c r e, t_next_token l (String c r) = PErr e -> re_kind e = E_token /\ re_loc e = loc_update no_location l /\
  ((re_text e = ("Unexpected character '" ++ String c "" ++ "' in input")%string /\ c <> "."%char) \/
   (c = "."%char /\ exists w rest, span is_ident_char r = (w, rest) /\ to_directive_name (String "." w) = None /\ to_suffix (String "." w) = None /\ re_text e = ("Unrecognized dotted name '" ++ String "." w ++ "' in input")%string)).
Proof.
  intros l c r e H. destruct (Ascii.eqb c ".") eqn:D.
  - apply Ascii.eqb_eq in D. subst c. cbn [t_next_token] in H. change (is_single_punct ".") with false in H. change (is_decimal_digit ".") with false in H. change (Ascii.eqb "." ".") with true in H. cbv iota zeta in H.
    destruct (span is_ident_char r) as [w rest] eqn:S. unfold t_dotted_token in H. destruct (to_directive_name (String "." w)) eqn:A; [discriminate|]. destruct (to_suffix (String "." w)) eqn:B; [discriminate|].
    injection H as <-. split; [reflexivity|]. split; [reflexivity|]. right. split; [reflexivity|]. exists w, rest. repeat split; assumption.
  - assert (N : c <> "."%char) by (intros ->; discriminate).
    assert (E : e = RError E_token ("Unexpected character '" ++ String c "" ++ "' in input") (loc_update no_location l)).
    { revert H. unfold t_next_token. rewrite D. set (text := ("Unexpected character '" ++ String c "" ++ "' in input")%string).
      repeat match goal with
      | |- POk _ = PErr _ -> _ => discriminate
      | |- err_at _ _ _ = PErr _ -> _ => intros X; injection X as <-; reflexivity
      | |- (if ?b then _ else _) = PErr _ -> _ => destruct b
      | |- (let (_, _) := ?p in _) = PErr _ -> _ => destruct p
      | |- match ?x with _ => _ end = PErr _ -> _ => destruct x
      end. }
    subst e. split; [reflexivity|]. split; [reflexivity|]. left. split; [reflexivity|exact N].
Qed.
Lemma span_whole : forall f s a b, span f s = (a, b) -> s = (a ++ b)%string /\ (forall x c y, a = (x ++ String c y)%string -> f c = true) /\ forall c r, b = String c r -> f c = false.
Proof. intros f s a b H. destruct (span_split _ _ _ _ H) as (A & B & C). split; [exact A|]. split; [|intros c r ->; exact C]. clear - B. intros x. revert a B. induction x as [|d x IH]; intros a B c y ->; cbn in B; apply andb_true_iff in B; destruct B as [B1 B2]; [exact B1|exact (IH _ B2 c y eq_refl)].
Qed.
Lemma tokens_says : forall l f s e, t_tokenize_fuel f l s = PErr e -> re_kind e = E_token /\ re_loc e = loc_update no_location l /\
  exists pre part post, s = (pre ++ part ++ post)%string /\ unreadable post part (re_text e).
Proof.
  intros l. induction f as [|f IH]; intros s e H; [discriminate|]. cbn [t_tokenize_fuel] in H. destruct (strip_leading_shape s) as (w & W & _ & SPC).
  destruct (strip_leading s) as [|c r] eqn:S; [discriminate|]. cbn [hd_sat] in SPC. destruct (Ascii.eqb c ";") eqn:SC; [discriminate|].
  destruct (t_next_token l (String c r)) as [[t rest]|e1|u|] eqn:N; try discriminate; cbn [pbind] in H.
  - destruct (t_tokenize_fuel f l rest) as [ts|e1|u|] eqn:T; try discriminate. injection H as <-. destruct (IH _ _ T) as (K & L & pre & part & post & E & U). split; [exact K|]. split; [exact L|].
    pose proof (bare_next l (String c r)) as B. rewrite N in B. cbn [bare] in B. destruct (next_cases (String c r) ltac:(discriminate)) as [(t1 & r1 & p & X & Y & _)|(e2 & X)]; rewrite X in B; [|discriminate].
    injection B as <- <-. exists (w ++ p ++ pre)%string, part, post. split; [|exact U]. rewrite W, Y, E, !sapp_assoc. reflexivity.
  - injection H as <-. destruct (next_says _ _ _ _ N) as (K & L & D). split; [exact K|]. split; [exact L|]. destruct D as [[T NP]|(-> & wd & rest & SP & A & B & T)].
    + exists w, (String c ""), r. split; [exact W|]. rewrite T. apply unread_character; [|exact NP]. rewrite tokenize_eq.
      assert (SS : strip_leading (String c r) = String c r) by (cbn [strip_leading]; rewrite SPC; reflexivity). rewrite SS, SC. pose proof (bare_next l (String c r)) as B. rewrite N in B. cbn [bare] in B. rewrite <- B, K. reflexivity.
    + destruct (span_whole _ _ _ _ SP) as (E & F & G). exists w, (String "." wd), rest. split; [rewrite W, E; reflexivity|]. rewrite T. apply unread_dotted; assumption.
Qed.
Fixpoint within (part text : string) : bool :=
  String.prefix part text || match text with EmptyString => false | String _ r => within part r end.
Lemma prefix_app : forall p r, String.prefix p (p ++ r) = true.
Proof. induction p as [|c p IH]; intros r; [destruct r; reflexivity|]. cbn. destruct (Ascii.ascii_dec c c); [apply IH|congruence]. Qed.
Lemma mentions_within : forall text part, mentions text part -> within part text = true.
Proof.
  intros text part (a & b & ->). induction a as [|c a IH].
  - change ("" ++ part ++ b)%string with (part ++ b)%string. destruct (part ++ b)%string eqn:E; cbn [within]; rewrite <- E, prefix_app; reflexivity.
  - change (String c a ++ part ++ b)%string with (String c (a ++ part ++ b)). cbn [within]. rewrite IH. apply Bool.orb_true_r.
Qed.

(** Proofs about the messages about names. *)
From Verif Require Import BaseProofs ModelMnemonic ModelExpr ModelMap ModelModule ModelAssembler ModelLocation ModelRomText ModelParseText ModelFlagText ModelNameText
  SpecParseText SpecNameText NameProofs OrderProofs.
Open Scope string_scope.
Open Scope list_scope.
Open Scope Z_scope.

Definition same_lookup (tc : t_lookup) (c : lookup_ctx) : Prop := forall id, SpecParseText.bare (tc id) = c id.
Lemma bare_op : forall r, SpecParseText.bare (t_op r) = r.
Proof. intros []; reflexivity. Qed.
Lemma bare_eval : forall tc c e, same_lookup tc c -> SpecParseText.bare (t_eval tc e) = eval c e.
Proof.
  intros tc c e S. induction e as [v t|id t|op l IHl r IHr|op e IH|n e IH]; cbn [t_eval eval].
  - reflexivity.
  - apply S.
  - rewrite <- IHl, <- IHr. destruct (t_eval tc l), (t_eval tc r); try reflexivity. apply bare_op.
  - rewrite <- IH. destruct (t_eval tc e); try reflexivity. apply bare_op.
  - exact IH.
Qed.
Lemma bare_module_ctx : forall m scopes tc c, same_lookup tc c -> same_lookup (t_module_ctx m scopes tc) (module_ctx m scopes c).
Proof.
  intros m scopes tc c S id. unfold t_module_ctx, module_ctx. assert (L : forall i, SpecParseText.bare (t_local_lookup m i id) = local_lookup m i).
  { intros i. unfold t_local_lookup, local_lookup. destruct (znth (md_lines m) i); [|reflexivity]. destruct (ln_value l); reflexivity. }
  destruct (fi_module id) as [mn|].
  - destruct (String.eqb mn (md_name m)); [|apply S]. destruct (local_index m (fi_name id) []); try apply S. apply L.
  - destruct (local_index m (fi_name id) scopes); try apply S. apply L.
Qed.
Lemma bare_assembler_ctx : forall paths ms names, same_lookup (t_assembler_ctx paths ms names) (assembler_ctx ms names).
Proof.
  intros paths ms names id. unfold t_assembler_ctx, assembler_ctx. destruct (negb (fi_qualified id)); [reflexivity|]. destruct (assoc_id id names) as [i|]; [|reflexivity]. destruct (znth ms i) as [m|]; [|reflexivity].
  unfold t_value_for_name, value_for_name. cbv zeta. destruct (fi_module id) as [mn|]; [|reflexivity]. destruct (String.eqb mn (md_name m)); [|reflexivity].
  destruct (assoc_string (fi_name id) (md_globals m)) as [k|]; [|reflexivity]. destruct (znth (md_lines m) k) as [l|]; [|reflexivity]. destruct (ln_value l); reflexivity.
Qed.

Lemma eval_all : forall c e v, t_eval c e = POk v -> Forall (fun id => exists w, c id = POk w) (ids e).
Proof.
  intros c e. induction e as [v0 t|id t|op l IHl r IHr|op e IH|n e IH]; intros v H; cbn [t_eval ids] in *.
  - constructor.
  - constructor; [exists v; exact H|constructor].
  - destruct (t_eval c l) as [a|e1|u|] eqn:L, (t_eval c r) as [b|e2|u2|] eqn:R; try discriminate. apply Forall_app. split; [exact (IHl _ eq_refl)|exact (IHr _ eq_refl)].
  - destruct (t_eval c e) as [a|e1|u|]; try discriminate. exact (IH _ eq_refl).
  - exact (IH _ H).
Qed.
Lemma op_error : forall op a b er, t_op (apply_binop op a b) = PErr er -> re_kind er = E_div_zero /\ re_text er = "division by zero".
Proof.
  intros op a b er H. assert (I : forall z, t_op (int_result z) <> PErr er) by (intros z X; unfold int_result in X; destruct (in_int z); discriminate X).
  destruct op; cbn [apply_binop] in H; try (destruct (I _ H)). destruct (b =? 0); [injection H as <-; split; reflexivity|destruct (I _ H)].
Qed.
Lemma unop_error : forall op a er, t_op (apply_unop op a) <> PErr er.
Proof. intros op a er H. unfold apply_unop in H. destruct op; try discriminate H. unfold int_result in H. destruct (in_int _); discriminate H. Qed.
Lemma eval_first : forall c e er, t_eval c e = PErr er -> (re_kind er = E_div_zero /\ re_text er = "division by zero") \/
  exists before id after, ids e = before ++ id :: after /\ Forall (fun x => exists v, c x = POk v) before /\ c id = PErr er.
Proof.
  intros c e. induction e as [v0 t|id t|op l IHl r IHr|op e IH|n e IH]; intros er H; cbn [t_eval ids] in *.
  - discriminate.
  - right. exists [], id, []. split; [reflexivity|]. split; [constructor|exact H].
  - destruct (t_eval c l) as [a|e1|u|] eqn:L.
    + destruct (t_eval c r) as [b|e2|u2|] eqn:R; try discriminate; [left; exact (op_error _ _ _ _ H)|]. injection H as ->.
      destruct (IHr _ eq_refl) as [D|(before & id & after & -> & F & X)]; [left; exact D|]. right. exists (ids l ++ before), id, after.
      split; [rewrite app_assoc; reflexivity|]. split; [apply Forall_app; split; [exact (eval_all _ _ _ L)|exact F]|exact X].
    + destruct (t_eval c r); try discriminate; injection H as ->; (destruct (IHl _ eq_refl) as [D|(before & id & after & -> & F & X)]; [left; exact D|]); right; exists before, id, (after ++ ids r); (split; [rewrite <- app_assoc; reflexivity|split; [exact F|exact X]]).
    + discriminate.
    + destruct (t_eval c r); discriminate.
  - destruct (t_eval c e) as [a|e1|u|]; cbn [pbind] in H; try discriminate; [destruct (unop_error _ _ _ H)|]. injection H as ->. exact (IH _ eq_refl).
  - exact (IH _ H).
Qed.

(** ** What a lookup says. *)
Lemma search_none : forall name maps, search_scopes name maps = None -> forall s, In s maps -> ~ In name (map fst s).
Proof.
  intros name maps. induction maps as [|s0 maps IH]; intros H s I; [destruct I|]. cbn [search_scopes] in H. destruct (assoc_string name s0) eqn:A; [discriminate|].
  destruct I as [<-|I]; [apply (NameProofs.assoc_string_none _ _ _) in A; exact A|exact (IH H s I)].
Qed.
Lemma search_some : forall name maps i, search_scopes name maps = Some i -> exists s, In s maps /\ In name (map fst s).
Proof.
  intros name maps i. induction maps as [|s0 maps IH]; intros H; [discriminate|]. cbn [search_scopes] in H. destruct (assoc_string name s0) eqn:A.
  - exists s0. split; [left; reflexivity|]. apply NameProofs.assoc_string_in in A. apply (in_map fst) in A. exact A.
  - destruct (IH H) as (s & I & N). exists s. split; [right; exact I|exact N].
Qed.
Definition scope_maps (m : module) (scopes : list Z) := map (fun i => match znth (md_lines m) i with Some l => ln_locals l | None => [] end) scopes.
Lemma index_none : forall m name scopes, (forall i, local_index m name scopes <> Ok i) -> (forall i l, In i scopes -> znth (md_lines m) i = Some l -> ~ In name (map fst (ln_locals l))) /\ ~ In name (map fst (md_globals m)).
Proof.
  intros m name scopes N. unfold local_index in N. destruct (search_scopes name _) as [i|] eqn:S; [destruct (N i eq_refl)|]. pose proof (search_none _ _ S) as A. split.
  - intros i l I Z. apply A. apply in_or_app. left. apply in_map_iff. exists i. rewrite Z. split; [reflexivity|exact I].
  - apply A. apply in_or_app. right. left. reflexivity.
Qed.
Lemma index_some : forall m name scopes i, local_index m name scopes = Ok i -> (exists i l, In i scopes /\ znth (md_lines m) i = Some l /\ In name (map fst (ln_locals l))) \/ In name (map fst (md_globals m)).
Proof.
  intros m name scopes i H. unfold local_index in H. destruct (search_scopes name _) as [j|] eqn:S; [|discriminate]. destruct (search_some _ _ _ S) as (s & I & N). apply in_app_or in I. destruct I as [I|[<-|[]]]; [left|right; exact N].
  apply in_map_iff in I. destruct I as (k & <- & K). destruct (znth (md_lines m) k) as [l|] eqn:Z; [|destruct N]. exists k, l. split; [exact K|]. split; [exact Z|exact N].
Qed.
Definition absent_text (id : fullid) : string := ("No definition for '" ++ fullid_to_string (outside id) ++ "' found")%string.
Definition early_text (id : fullid) : string := ("Value '" ++ fullid_to_string id ++ "' accessed before definition")%string.
Lemma lookup_says : forall m scopes paths ms names id er, t_module_ctx m scopes (t_assembler_ctx paths ms names) id = PErr er ->
  (re_kind er = E_undefined /\ re_text er = absent_text id /\ ~ has_line m scopes id /\ ~ In (outside id) (map fst names)) \/
  (re_kind er = E_before_def /\ re_text er = early_text id /\ has_line m scopes id /\ exists i l, znth (md_lines m) i = Some l /\ ln_value l = None) \/
     (re_kind er = E_logic /\ In (outside id) (map fst names)).
Proof.
  intros m scopes paths ms names id er H.
  assert (AX : forall id', fi_qualified id' = true -> t_assembler_ctx paths ms names id' = PErr er -> (re_kind er = E_undefined /\ re_text er = ("No definition for '" ++ fullid_to_string id' ++ "' found")%string /\ ~ In id' (map fst names)) \/ (re_kind er = E_logic /\ In id' (map fst names))).
  { intros id' Q X. unfold t_assembler_ctx in X. rewrite Q in X. cbn [negb] in X. destruct (assoc_id id' names) as [i|] eqn:A.
    - right. split; [|apply assoc_id_in in A; apply (in_map fst) in A; exact A]. destruct (znth ms i) as [m'|]; [|discriminate]. unfold t_value_for_name in X. cbv zeta in X. destruct (fi_module id') as [mn|]; [|injection X as <-; reflexivity]. destruct (String.eqb mn (md_name m')); [|injection X as <-; reflexivity].
      destruct (assoc_string _ _) as [k|]; [|injection X as <-; reflexivity]. destruct (znth (md_lines m') k) as [l|]; [|discriminate]. destruct (ln_value l); [discriminate|injection X as <-; reflexivity].
    - injection X as <-. left. split; [reflexivity|]. split; [reflexivity|]. apply assoc_id_none. exact A. }
  assert (LL : forall i, t_local_lookup m i id = PErr er -> re_kind er = E_before_def /\ re_text er = early_text id /\ exists i l, znth (md_lines m) i = Some l /\ ln_value l = None).
  { intros i X. unfold t_local_lookup in X. destruct (znth (md_lines m) i) as [l|] eqn:Z; [|discriminate]. destruct (ln_value l) eqn:V; [discriminate|injection X as <-; split; [reflexivity|split; [reflexivity|exists i, l; split; [exact Z|exact V]]]]. }
  unfold t_module_ctx in H. unfold absent_text, outside, has_line. destruct (fi_module id) as [mn|] eqn:MN.
  - assert (Q : fi_qualified id = true) by (unfold fi_qualified; rewrite MN; reflexivity). destruct (String.eqb_spec mn (md_name m)) as [->|NE].
    + destruct (local_index m (fi_name id) []) as [i|e1|u|] eqn:LI.
      * right. left. destruct (LL i H) as (K & T & V). split; [exact K|]. split; [exact T|]. split; [|exact V]. right. split; [right; reflexivity|]. destruct (index_some _ _ _ _ LI) as [(i0 & l & [] & _)|G]. exact G.
      * destruct (AX id Q H) as [(K & T & N)|K]; [|right; right; exact K]. left. split; [exact K|]. split; [exact T|]. split; [|exact N].
        destruct (index_none m (fi_name id) []) as [_ G]; [intros i X; congruence|]. intros [[X _]|[_ X]]; [discriminate X|exact (G X)].
      * destruct (AX id Q H) as [(K & T & N)|K]; [|right; right; exact K]. left. split; [exact K|]. split; [exact T|]. split; [|exact N].
        destruct (index_none m (fi_name id) []) as [_ G]; [intros i X; congruence|]. intros [[X _]|[_ X]]; [discriminate X|exact (G X)].
      * destruct (AX id Q H) as [(K & T & N)|K]; [|right; right; exact K]. left. split; [exact K|]. split; [exact T|]. split; [|exact N].
        destruct (index_none m (fi_name id) []) as [_ G]; [intros i X; congruence|]. intros [[X _]|[_ X]]; [discriminate X|exact (G X)].
    + destruct (AX id Q H) as [(K & T & N)|K]; [|right; right; exact K]. left. split; [exact K|]. split; [exact T|]. split; [|exact N].
      intros [[X _]|[[X|X] _]]; [discriminate X|discriminate X|injection X as X; exact (NE X)].
  - destruct (local_index m (fi_name id) scopes) as [i|e1|u|] eqn:LI.
    + right. left. destruct (LL i H) as (K & T & V). split; [exact K|]. split; [exact T|]. split; [|exact V]. destruct (index_some _ _ _ _ LI) as [G|G]; [left; split; [reflexivity|exact G]|right; split; [left; reflexivity|exact G]].
    + destruct (AX (FullId (Some "") (fi_name id)) eq_refl H) as [(K & T & N)|K]; [|right; right; exact K]. left. split; [exact K|]. split; [exact T|]. split; [|exact N].
      destruct (index_none m (fi_name id) scopes) as [S G]; [intros i X; congruence|]. intros [[_ (i & l & I & Z & X)]|[_ X]]; [exact (S i l I Z X)|exact (G X)].
    + destruct (AX (FullId (Some "") (fi_name id)) eq_refl H) as [(K & T & N)|K]; [|right; right; exact K]. left. split; [exact K|]. split; [exact T|]. split; [|exact N].
      destruct (index_none m (fi_name id) scopes) as [S G]; [intros i X; congruence|]. intros [[_ (i & l & I & Z & X)]|[_ X]]; [exact (S i l I Z X)|exact (G X)].
    + destruct (AX (FullId (Some "") (fi_name id)) eq_refl H) as [(K & T & N)|K]; [|right; right; exact K]. left. split; [exact K|]. split; [exact T|]. split; [|exact N].
      destruct (index_none m (fi_name id) scopes) as [S G]; [intros i X; congruence|]. intros [[_ (i & l & I & Z & X)]|[_ X]]; [exact (S i l I Z X)|exact (G X)].
Qed.
Lemma eval_says : forall m scopes paths ms names e er, let c := t_module_ctx m scopes (t_assembler_ctx paths ms names) in t_eval c e = PErr er ->
  (re_kind er = E_div_zero /\ re_text er = "division by zero") \/
  exists before id after, ids e = before ++ id :: after /\ Forall (fun x => exists v, c x = POk v) before /\ c id = PErr er /\
    ((re_kind er = E_undefined /\ re_text er = absent_text id /\ ~ has_line m scopes id /\ ~ In (outside id) (map fst names)) \/
     (re_kind er = E_before_def /\ re_text er = early_text id /\ has_line m scopes id /\ exists i l, znth (md_lines m) i = Some l /\ ln_value l = None) \/
     (re_kind er = E_logic /\ In (outside id) (map fst names))).
Proof.
  intros m scopes paths ms names e er c H. destruct (eval_first _ _ _ H) as [D|(before & id & after & E & F & X)]; [left; exact D|]. right. exists before, id, after. split; [exact E|]. split; [exact F|]. split; [exact X|].
  exact (lookup_says _ _ _ _ _ _ _ X).
Qed.

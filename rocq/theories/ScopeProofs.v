(** Proofs about scopes and definitions of loaded modules. *)
From Verif Require Import BaseProofs ModelMnemonic ModelExpr ModelInstr ModelState ModelStatement ModelToken
  ModelParse ModelMap ModelRanges ModelModule MapProofs ParseProofs OriginProofs SpecScope
  OrderProofs LoadProofs.
Open Scope list_scope.

(** ** Definitions. *)
Lemma scope_top_scope : forall (before : source) x sc, scope_of (map snd before) x sc <-> scope_top (stack (map snd before)) x = sc.
Proof. intros. rewrite scope_top_exact. split; congruence. Qed.

Lemma label_at_snoc : forall src labels s sc n t p, label_at (src ++ [(labels, s)]) sc n t p <->
  label_at src sc n t p \/
  (t = zlen src /\ nth_error (label_defs (stack (map snd src)) (zlen src) labels) p = Some (sc, n, t)).
Proof.
  intros src labels s sc n t p. unfold label_defs. rewrite nth_error_map. split.
  - intros (before & labels' & s' & after & x & E & T & N & S). destruct (snoc_cases _ after) as [->|(after' & y & ->)].
    + apply app_inj_tail in E. destruct E as [<- E]. injection E as <- <-. right. subst t.
      split; [reflexivity|]. rewrite N. cbn. apply scope_top_scope in S. rewrite S. reflexivity.
    + left. change (before ++ (labels', s') :: after' ++ [y]) with (before ++ ((labels', s') :: after') ++ [y]) in E.
      rewrite app_assoc in E. apply app_inj_tail in E. destruct E as [-> _].
      exists before, labels', s', after', x. auto.
  - intros [(before & labels' & s' & after & x & -> & T & N & S)|[-> N]].
    + exists before, labels', s', (after ++ [(labels, s)]), x. rewrite <- app_assoc. auto.
    + destruct (nth_error labels p) as [[n' x]|] eqn:L; [|discriminate]. cbn in N. injection N as S <-.
      exists src, labels, s, [], x. repeat split; auto. apply scope_top_scope. exact S.
Qed.

Lemma label_at_range : forall src sc n t p, label_at src sc n t p -> 0 <= t < zlen src.
Proof.
  intros src sc n t p (before & labels & s & after & x & -> & -> & _). rewrite zlen_app, zlen_cons.
  pose proof (zlen_nonneg _ after). unfold zlen in *. lia.
Qed.
Lemma defined_dlist : forall src sc n t, defined src sc n t <-> In (sc, n, t) (dlist src).
Proof.
  induction src as [|[labels s] src IH] using rev_ind; intros sc n t.
  - split; [|intros []]. intros (p & before & labels & s & after & x & E & _). destruct before; discriminate.
  - rewrite dlist_snoc, in_app_iff, <- IH. unfold defined. split.
    + intros [p H]. apply label_at_snoc in H. destruct H as [H|[_ H]]; [left; eauto|right].
      eapply nth_error_In. exact H.
    + intros [[p H]|H]; [exists p; apply label_at_snoc; auto|]. pose proof H as H'.
      apply In_nth_error in H. destruct H as [p H]. exists p. apply label_at_snoc. right. split; [|exact H].
      apply in_map_iff in H'. destruct H' as ([n' x] & E & _). injection E as _ _ E. auto.
Qed.

Lemma nodup_app_iff : forall A (l1 l2 : list A), NoDup (l1 ++ l2) <->
  NoDup l1 /\ NoDup l2 /\ forall x, In x l1 -> ~ In x l2.
Proof.
  intros A l1 l2. split.
  - induction l1 as [|x l1 IH]; cbn; intros H; [repeat split; [constructor|exact H|tauto]|].
    inversion H as [|? ? H1 H2]; subst. destruct (IH H2) as (I1 & I2 & I3). repeat split; auto.
    + constructor; [|exact I1]. intros I. apply H1. apply in_or_app. auto.
    + intros y [<-|I] J; [apply H1; apply in_or_app; auto|]. exact (I3 _ I J).
  - intros (H1 & H2 & H3). apply nodup_app; assumption.
Qed.

Lemma duplicates_exact : forall src, NoDup (keys (dlist src)) <-> no_duplicates src.
Proof.
  induction src as [|[labels s] src IH] using rev_ind.
  - split; [|constructor]. intros _ sc n t p t' p' H. apply label_at_range in H. rewrite zlen_nil in H. lia.
  - rewrite dlist_snoc, keys_app, nodup_app_iff, IH. set (ld := label_defs (stack (map snd src)) (zlen src) labels).
    assert (LD : forall p sc n t, nth_error ld p = Some (sc, n, t) -> t = zlen src).
    { intros p sc n t H. apply nth_error_In, in_map_iff in H. destruct H as ([n' x] & E & _). injection E as _ _ <-. reflexivity. }
    split.
    + intros (H1 & H2 & H3) sc n t p t' p' L L'. apply label_at_snoc in L, L'. fold ld in L, L'.
      rewrite NoDup_nth_error in H2. unfold keys in H2. rewrite map_length in H2. unfold definition in *.
      assert (X : forall t t' p p', label_at src sc n t p -> nth_error ld p' = Some (sc, n, t') -> False).
      { intros u u' q q' A B. apply (H3 (sc, n)).
        - apply in_map_iff. exists (sc, n, u). split; [reflexivity|]. apply defined_dlist. exists q. exact A.
        - apply in_map_iff. exists (sc, n, u'). split; [reflexivity|]. eapply nth_error_In. exact B. }
      destruct L as [L|[T L]], L' as [L'|[T' L']].
      * eapply H1; eassumption.
      * destruct (X _ _ _ _ L L').
      * destruct (X _ _ _ _ L' L).
      * split; [congruence|]. apply H2.
        -- apply nth_error_Some. rewrite L. discriminate.
        -- rewrite !nth_error_map, L, L'. reflexivity.
    + intros H. split; [|split].
      * intros sc n t p t' p' L L'. apply (H sc n); apply label_at_snoc; auto.
      * apply NoDup_nth_error. unfold keys. rewrite map_length. unfold definition in *. intros i j I E. rewrite !nth_error_map in E.
        destruct (nth_error ld i) as [[[sc n] t]|] eqn:A; [|apply nth_error_Some in I; congruence].
        destruct (nth_error ld j) as [[[sc' n'] t']|] eqn:B; [|discriminate]. cbn in E. injection E as <- <-.
        apply (H sc n t i t' j); apply label_at_snoc; right; (split; [eapply LD; eassumption|assumption]).
      * intros [sc n] I J. apply in_map_iff in I, J. destruct I as ([k t] & E & I), J as ([k' t'] & E' & J).
        cbn in E, E'. subst k k'. apply defined_dlist in I. destruct I as [p I].
        apply In_nth_error in J. destruct J as [q J]. pose proof (LD _ _ _ _ J) as T.
        destruct (H sc n t p t' q) as [-> _]; [apply label_at_snoc; auto..|]. apply label_at_range in I. lia.
Qed.

(** ** Lookup. *)
Definition scope_maps (m : module) (scopes : list Z) : list (list (string * Z)) :=
  map (fun i => match znth (md_lines m) i with Some l => ln_locals l | None => [] end) scopes ++ [md_globals m].

Lemma local_index_search : forall m n scopes t,
  local_index m n scopes = Ok t <-> search_scopes n (scope_maps m scopes) = Some t.
Proof.
  intros. unfold local_index, scope_maps. destruct (search_scopes n _); split; congruence.
Qed.
Lemma local_index_outcome : forall m n scopes,
  (exists t, local_index m n scopes = Ok t) \/ local_index m n scopes = Err E_undefined.
Proof. intros. unfold local_index. destruct (search_scopes n _); eauto. Qed.

Lemma search_stack : forall name src n sc, NoDup (keys (dlist src)) ->
  (forall b, In b sc -> 0 <= b < zlen src) -> forall t,
  search_scopes n (scope_maps (closed name src) sc) = Some t <->
  (exists sc1 b sc2, sc = sc1 ++ b :: sc2 /\ In (Some b, n, t) (dlist src) /\
     forall b' t', In b' sc1 -> ~ In (Some b', n, t') (dlist src)) \/
  (In (None, n, t) (dlist src) /\ forall b' t', In b' sc -> ~ In (Some b', n, t') (dlist src)).
Proof.
  intros name src n sc ND. unfold scope_maps. induction sc as [|b sc IH]; intros R t; cbn [map app search_scopes].
  - cbn [closed md_globals]. pose proof (assoc_in_scope_iff None (dlist src) n t ND) as A.
    destruct (assoc_string n (in_scope None (dlist src))) as [u|] eqn:E.
    + split; [intros H; right; split; [apply A; exact H|intros b' t' []]|]. intros [(sc1 & b & sc2 & X & _)|[H _]].
      * destruct sc1; discriminate.
      * apply A in H. exact H.
    + split; [discriminate|]. intros [(sc1 & b & sc2 & X & _)|[H _]]; [destruct sc1; discriminate|].
      apply A in H. discriminate.
  - destruct (znth_in_range _ (mk_lines (dlist src) 0 [] src) b) as [l L].
    { rewrite mk_lines_len. apply R. left. reflexivity. }
    cbn [closed md_lines] in *. rewrite L. apply mk_lines_nth in L. destruct L as (? & ? & ? & ? & _ & _ & ->). cbn [ln_locals].
    pose proof (fun u => assoc_in_scope_iff (Some b) (dlist src) n u ND) as A.
    destruct (assoc_string n (in_scope (Some b) (dlist src))) as [u|] eqn:E.
    + split.
      * intros H. left. exists [], b, sc. split; [reflexivity|]. split; [apply A; exact H|intros b' t' []].
      * intros [(sc1 & c & sc2 & X & D & F)|[_ F]].
        -- destruct sc1 as [|c' sc1].
           ++ cbn in X. injection X as <- <-. apply A in D. exact D.
           ++ cbn in X. injection X as <- X. destruct (F b u (or_introl eq_refl)). apply A. reflexivity.
        -- destruct (F b u (or_introl eq_refl)). apply A. reflexivity.
    + assert (NB : forall u, ~ In (Some b, n, u) (dlist src)) by (intros u I; apply A in I; discriminate).
      rewrite IH by (intros c I; apply R; right; exact I). split.
      * intros [(sc1 & c & sc2 & -> & D & F)|[D F]].
        -- left. exists (b :: sc1), c, sc2. repeat split; auto. intros b' t' [<-|I]; [apply NB|apply F; exact I].
        -- right. split; [exact D|]. intros b' t' [<-|I]; [apply NB|apply F; exact I].
      * intros [(sc1 & c & sc2 & X & D & F)|[D F]].
        -- destruct sc1 as [|c' sc1]; cbn in X; [injection X as <- <-; destruct (NB _ D)|]. injection X as <- ->.
           left. exists sc1, c, sc2. repeat split; auto. intros b' t' I. apply F. right. exact I.
        -- right. split; [exact D|]. intros b' t' I. apply F. right. exact I.
Qed.

Lemma decreasing_split : forall sc1 b sc2 n, decreasing n (sc1 ++ b :: sc2) ->
  forall b', In b' (sc1 ++ b :: sc2) -> (b < b' <-> In b' sc1).
Proof.
  induction sc1 as [|c sc1 IH]; intros b sc2 n D b' I; cbn in D, I; destruct D as [D1 D2].
  - split; [|intros []]. destruct I as [->|I]; [lia|]. apply (decreasing_in _ _ _ D2) in I. lia.
  - assert (B : b < c) by (apply (decreasing_in _ c b D2); apply in_or_app; right; left; reflexivity).
    destruct I as [<-|I]; [split; [intros _; left; reflexivity|intros _; exact B]|].
    rewrite (IH _ _ _ D2 _ I). split; [right; assumption|]. intros [->|H]; [|exact H].
    apply (decreasing_in _ _ _ D2) in I. lia.
Qed.

Lemma lookup_exact : forall name before after n t, NoDup (keys (dlist (before ++ after))) ->
  (local_index (closed name (before ++ after)) n (stack (map snd before)) = Ok t <->
   denotes (before ++ after) (zlen before) n t).
Proof.
  intros name before after n t ND. set (src := before ++ after) in *.
  pose proof (stack_decreasing (map snd before)) as D. rewrite zlen_map in D.
  rewrite local_index_search, search_stack; [|exact ND|].
  2: { intros b I. apply (decreasing_in _ _ _ D) in I. unfold src. rewrite zlen_app.
       pose proof (zlen_nonneg _ after). lia. }
  assert (DF : forall sc n t, In (sc, n, t) (dlist src) <-> defined src sc n t) by (intros; symmetry; apply defined_dlist).
  split.
  - intros H. exists before, after. split; [reflexivity|]. split; [reflexivity|]. cbv zeta.
    destruct H as [(sc1 & b & sc2 & E & I & F)|[I F]].
    + left. exists b. split; [apply stack_in; rewrite E; apply in_or_app; right; left; reflexivity|].
      split; [apply DF; exact I|]. intros b' t' O L. rewrite <- DF. apply F. apply stack_in in O.
      rewrite E in O, D. apply (decreasing_split _ _ _ _ D _ O). exact L.
    + right. split; [apply DF; exact I|]. intros b' t' O. rewrite <- DF. apply F. apply stack_in. exact O.
  - intros (before' & after' & E & L & H). cbv zeta in H.
    assert (before' = before) as ->.
    { unfold src in E. assert (LL : List.length before = List.length before') by (unfold zlen in L; lia).
      clear -E LL. revert before' after' E LL. induction before as [|x before IH]; intros [|y before'] after' E LL; try discriminate; [reflexivity|].
      cbn in E. injection E as -> E. f_equal. eapply IH; [exact E|]. cbn in LL. lia. }
    destruct H as [(b & O & I & F)|[I F]].
    + left. apply stack_in in O. destruct (in_split _ _ O) as (sc1 & sc2 & E'). exists sc1, b, sc2.
      split; [exact E'|]. split; [apply DF; exact I|]. intros b' t' I'. rewrite DF.
      assert (O' : In b' (stack (map snd before))) by (rewrite E'; apply in_or_app; auto).
      apply F; [apply stack_in; exact O'|]. rewrite E' in D, O'. apply (decreasing_split _ _ _ _ D _ O'). exact I'.
    + right. split; [apply DF; exact I|]. intros b' t' I'. rewrite DF. apply F. apply stack_in. exact I'.
Qed.

Lemma global_exact : forall name src n t, NoDup (keys (dlist src)) ->
  (local_index (closed name src) n [] = Ok t <-> defined src None n t).
Proof.
  intros name src n t ND. rewrite local_index_search, search_stack; [|exact ND|intros b []].
  rewrite defined_dlist. split; [|intros H; right; split; [exact H|intros b' t' []]].
  intros [(sc1 & b & sc2 & X & _)|[H _]]; [destruct sc1; discriminate|exact H].
Qed.

(** ** Module names. *)
Definition good_module (s : statement) : Prop :=
  forall d, s = SDir d -> d_name d = D_module ->
  exists id ty, d_arg d = Some (EId (FullId None id) ty) /\ id <> ""%string.

Lemma statements_in : forall es pending labels s, In (labels, s) (statements pending es) -> In (PStmt s) es.
Proof.
  induction es as [|[n x|s'] es IH]; intros pending labels s H; cbn in H; [destruct H|right; eauto|].
  destruct H as [E|H]; [injection E as _ ->; left; reflexivity|right; eauto].
Qed.
Lemma reads_origin : forall file src s, reads file src -> In s (map snd src) ->
  exists ts, Forall good_token ts /\ origin ts (PStmt s).
Proof.
  intros file src s (ess & F & ->) I. apply in_map_iff in I. destruct I as ([labels s'] & E & I). cbn in E. subst s'.
  apply statements_in in I. apply in_concat in I. destruct I as (es & I & J).
  clear -F I J. induction F as [|line es' file ess (ts & T & P) F IH]; [destruct I|].
  destruct I as [->|I]; [|auto]. exists ts. split; [eapply tokenize_good; exact T|].
  apply parse_origin in P. rewrite Forall_forall in P. auto.
Qed.
Lemma reads_modules : forall file src s, reads file src -> In s (map snd src) -> good_module s.
Proof.
  intros file src s R I d -> M. destruct (reads_origin _ _ _ R I) as (ts & G & O). cbn in O.
  destruct O as [(n & us & r & T & P)|(n & N & ->)].
  - pose proof (tail_forall _ _ _ T G) as G'. apply Forall_inv_tail in G'.
    exact (module_directive _ _ _ _ G' P M).
  - cbn in M. subst. destruct N; discriminate.
Qed.
Lemma reads_det : forall file src src', reads file src -> reads file src' -> src = src'.
Proof.
  intros file src src' (ess & F & ->) (ess' & F' & ->). f_equal. f_equal. revert ess' F'.
  induction F as [|line es file ess (ts & T & P) F IH]; intros ess' F'; inversion F' as [|? es' ? ess2 (ts' & T' & P') F2]; subst; [reflexivity|].
  rewrite T in T'. injection T' as <-. rewrite P in P'. injection P' as <-. f_equal. auto.
Qed.

Lemma names_ok_empty : forall ss n, (forall s, In s ss -> good_module s) -> names_ok ss n ->
  n = ""%string -> forall s, In s ss -> ~ is_dir D_module s.
Proof.
  intros ss n G H. induction H as [|ss s n H IH NM|ss d n H IH DM SI]; intros E s' I.
  - destruct I.
  - apply in_app_iff in I. destruct I as [I|[<-|[]]]; [|exact NM].
    apply IH; [|exact E|exact I]. intros x X. apply G, in_or_app. auto.
  - exfalso. destruct (G (SDir d)) with (d := d) as (id & ty & A & N); auto.
    + apply in_or_app. right. left. reflexivity.
    + rewrite A in SI. cbn in SI. congruence.
Qed.
Lemma names_ok_exact : forall ss, (forall s, In s ss -> good_module s) ->
  ((exists n, names_ok ss n) <->
   (forall a s b s' c, ss = a ++ s :: b ++ s' :: c -> is_dir D_module s -> ~ is_dir D_module s')).
Proof.
  intros ss G. split.
  - intros [n H]. induction H as [|ss s n H IH NM|ss d n H IH DM SI]; intros a s1 b s2 c E M1 M2.
    + destruct a; discriminate.
    + destruct (snoc_cases _ c) as [->|(c' & y & ->)].
      * change (a ++ s1 :: b ++ [s2]) with (a ++ (s1 :: b) ++ [s2]) in E. rewrite app_assoc in E.
        apply app_inj_tail in E. destruct E as [_ <-]. contradiction.
      * assert (E' : a ++ s1 :: b ++ s2 :: c' ++ [y] = (a ++ s1 :: b ++ s2 :: c') ++ [y])
          by (repeat (rewrite <- app_assoc; cbn); reflexivity).
        rewrite E' in E. apply app_inj_tail in E. destruct E as [E _].
        refine (IH _ _ _ _ _ _ E M1 M2). intros x X. apply G, in_or_app. auto.
    + assert (G' : forall s, In s ss -> good_module s) by (intros x X; apply G, in_or_app; auto).
      pose proof (names_ok_empty _ _ G' H eq_refl) as NO.
      destruct (snoc_cases _ c) as [->|(c' & y & ->)].
      * change (a ++ s1 :: b ++ [s2]) with (a ++ (s1 :: b) ++ [s2]) in E. rewrite app_assoc in E.
        apply app_inj_tail in E. destruct E as [-> _].
        apply (NO s1); [|exact M1]. apply in_or_app. right. left. reflexivity.
      * assert (E' : a ++ s1 :: b ++ s2 :: c' ++ [y] = (a ++ s1 :: b ++ s2 :: c') ++ [y])
          by (repeat (rewrite <- app_assoc; cbn); reflexivity).
        rewrite E' in E. apply app_inj_tail in E. destruct E as [-> _].
        apply (NO s1); [|exact M1]. apply in_or_app. right. left. reflexivity.
  - induction ss as [|s ss IH] using rev_ind; intros H; [exists ""%string; constructor|].
    assert (G' : forall s, In s ss -> good_module s) by (intros x X; apply G, in_or_app; auto).
    destruct (IH G') as [n N].
    { intros a s1 b s2 c -> M1. apply (H a s1 b s2 (c ++ [s])); [|exact M1]. repeat (rewrite <- app_assoc; cbn). reflexivity. }
    assert (DEC : is_dir D_module s \/ ~ is_dir D_module s).
    { destruct s as [i|d]; [right; intros (d & E & _); discriminate|].
      destruct (d_name d) eqn:E; try (right; intros (d' & X & Y); injection X as <-; congruence).
      left. exists d. auto. }
    destruct DEC as [(d & -> & DM)|NM]; [|exists n; constructor; assumption].
    destruct (G (SDir d)) with (d := d) as (id & ty & A & _); auto.
    { apply in_or_app. right. left. reflexivity. }
    exists id. apply no_module; [|exact DM|rewrite A; reflexivity].
    assert (n = ""%string) as <-; [|exact N].
    destruct (String.eqb_spec n "") as [E|NE]; [exact E|exfalso].
    assert (X : exists s1, In s1 ss /\ is_dir D_module s1).
    { clear -N NE. induction N as [|ss s n N IH NM|ss d n N IH DM SI]; [congruence| |].
      - destruct (IH NE) as (s1 & I & M). exists s1. split; [apply in_or_app; auto|exact M].
      - exists (SDir d). split; [apply in_or_app; right; left; reflexivity|exists d; auto]. }
    destruct X as (s1 & I & M). apply in_split in I. destruct I as (a & b & ->).
    apply (H a s1 b (SDir d) []); [|exact M|exists d; auto]. rewrite <- app_assoc. reflexivity.
Qed.
Lemma names_ok_named : forall src n, (forall s, In s (map snd src) -> good_module s) ->
  names_ok (map snd src) n -> module_named src n.
Proof.
  intros src n G H. unfold module_named. remember (map snd src) as ss eqn:E. clear E src.
  induction H as [|ss s n H IH NM|ss d n H IH DM SI].
  - right. split; [intros s []|reflexivity].
  - destruct IH as [(d & ty & I & M & A)|[NO ->]].
    + intros x X. apply G, in_or_app. auto.
    + left. exists d, ty. split; [apply in_or_app; auto|auto].
    + right. split; [|reflexivity]. intros x X. apply in_app_iff in X. destruct X as [X|[<-|[]]]; auto.
  - left. destruct (G (SDir d)) with (d := d) as (id & ty & A & _); auto.
    { apply in_or_app. right. left. reflexivity. }
    exists d, ty. rewrite A in *. cbn in SI. injection SI as ->.
    split; [apply in_or_app; right; left; reflexivity|auto].
Qed.

(** ** The theorems. *)
Lemma load_iff : forall file, (exists m, load_asm_file file = Ok m) <->
  exists src, reads file src /\ balanced (map snd src) /\ no_duplicates src /\ one_module src.
Proof.
  intros file. split.
  - intros [m H]. apply load_exact in H. destruct H as (src & name & R & (F1 & F2 & F3) & N & _).
    exists src. split; [exact R|]. split; [split; assumption|]. split; [apply duplicates_exact; exact F1|].
    unfold one_module. apply -> names_ok_exact; [eauto|intros s; eapply reads_modules; exact R].
  - intros (src & R & [N F2] & D & O). apply duplicates_exact in D.
    apply names_ok_exact in O; [|intros s; eapply reads_modules; exact R]. destruct O as [name O].
    exists (module_of name src). apply load_exact. exists src, name. repeat split; assumption.
Qed.

Lemma module_of_index : forall name src n sc,
  local_index (module_of name src) n sc = local_index (closed name src) n sc.
Proof. reflexivity. Qed.

Lemma scopes_index : forall m m' n sc, same_scopes m m' -> local_index m' n sc = local_index m n sc.
Proof.
  intros m m' n sc (_ & G & L). unfold local_index. rewrite G.
  replace (map (fun i => match znth (md_lines m') i with Some l => ln_locals l | None => [] end) sc)
    with (map (fun i => match znth (md_lines m) i with Some l => ln_locals l | None => [] end) sc); [reflexivity|].
  apply map_ext. intros i. apply (f_equal (fun l => znth l i)) in L. rewrite !znth_map in L.
  destruct (znth (md_lines m) i), (znth (md_lines m') i); cbn in L; congruence.
Qed.

Lemma nat_znth : forall A (l : list A) k, nth_error l k = znth l (Z.of_nat k).
Proof. intros. unfold znth. destruct (Z.ltb_spec (Z.of_nat k) 0); [lia|]. rewrite Nat2Z.id. reflexivity. Qed.

(** The lines of a loaded module and of the source. *)
Lemma loaded_line : forall file m0 m src k l, load_asm_file file = Ok m0 -> reads file src ->
  same_scopes m0 m -> nth_error (md_lines m) k = Some l ->
  exists name before s after, m0 = module_of name src /\ fine_source name src /\ nesting (map snd src) = 0 /\
    src = before ++ s :: after /\ List.length before = k /\ ln_scopes l = stack (map snd before).
Proof.
  intros file m0 m src k l H R S L. apply load_exact in H. destruct H as (src' & name & R' & F & N & ->).
  rewrite (reads_det _ _ _ R' R) in *. clear R'. destruct S as (_ & _ & S).
  apply (f_equal (fun x => nth_error x k)) in S. rewrite !nth_error_map, L in S. cbn [option_map] in S.
  cbn [module_of md_with_deps closed md_lines] in S.
  destruct (nth_error (mk_lines (dlist src) 0 [] src) k) as [l0|] eqn:L0; [|discriminate].
  rewrite nat_znth in L0. apply mk_lines_nth in L0. destruct L0 as (before & labels & s & after & E & LB & ->).
  injection S as S _. exists name, before, (labels, s), after. repeat split; try apply F; auto.
  unfold zlen in LB. lia.
Qed.

Lemma lookup_denotes : forall file m0 m src k l n t, load_asm_file file = Ok m0 -> reads file src ->
  same_scopes m0 m -> nth_error (md_lines m) k = Some l ->
  (local_index m n (ln_scopes l) = Ok t <-> denotes src (Z.of_nat k) n t).
Proof.
  intros file m0 m src k l n t H R S L.
  destruct (loaded_line _ _ _ _ _ _ H R S L) as (name & before & s & after & E0 & F & _ & E & K & SC).
  rewrite (scopes_index _ _ _ _ S), E0, module_of_index, SC.
  rewrite <- K. change (Z.of_nat (List.length before)) with (zlen before).
  pose proof (lookup_exact name before (s :: after) n t) as X. rewrite <- E in X. apply X. apply F.
Qed.

Lemma denotes_range : forall src k n t, denotes src k n t -> 0 <= t < zlen src.
Proof.
  intros src k n t (be & af & _ & _ & H). cbv zeta in H.
  destruct H as [(b & _ & [p H] & _)|[[p H] _]]; eapply label_at_range; exact H.
Qed.

Lemma values_denote : forall file m0 m src k l n ext, load_asm_file file = Ok m0 -> reads file src ->
  same_scopes m0 m -> nth_error (md_lines m) k = Some l ->
  (forall t, denotes src (Z.of_nat k) n t ->
     exists l', nth_error (md_lines m) (Z.to_nat t) = Some l' /\
       module_ctx m (ln_scopes l) ext (FullId None n) =
       match ln_value l' with Some v => Ok v | None => Err E_before_def end) /\
  ((forall t, ~ denotes src (Z.of_nat k) n t) ->
     module_ctx m (ln_scopes l) ext (FullId None n) = ext (FullId (Some ""%string) n)).
Proof.
  intros file m0 m src k l n ext H R S L.
  pose proof (fun t => lookup_denotes _ _ _ _ _ _ n t H R S L) as D.
  unfold module_ctx. cbn [fi_module fi_name]. split.
  - intros t T. pose proof (denotes_range _ _ _ _ T) as RT. apply D in T. rewrite T.
    assert (ZL : zlen (md_lines m) = zlen src).
    { destruct S as (_ & _ & S). apply (f_equal zlen) in S. rewrite !zlen_map in S. rewrite S.
      apply load_exact in H. destruct H as (src' & name & R' & _ & _ & ->). rewrite (reads_det _ _ _ R' R).
      apply mk_lines_len. }
    destruct (znth_in_range _ (md_lines m) t) as [l' L']; [lia|]. exists l'. unfold local_lookup. rewrite L'.
    split; [|reflexivity]. rewrite nat_znth, Z2Nat.id by lia. exact L'.
  - intros N. destruct (local_index_outcome m n (ln_scopes l)) as [[t T]|E]; [apply D in T; destruct (N _ T)|].
    rewrite E. reflexivity.
Qed.

Lemma values_qualified : forall file m0 m src scopes mn n ext, load_asm_file file = Ok m0 -> reads file src ->
  same_scopes m0 m ->
  (forall t, module_named src mn -> defined src None n t ->
     exists l', nth_error (md_lines m) (Z.to_nat t) = Some l' /\
       module_ctx m scopes ext (FullId (Some mn) n) =
       match ln_value l' with Some v => Ok v | None => Err E_before_def end) /\
  (~ (module_named src mn /\ exists t, defined src None n t) ->
     module_ctx m scopes ext (FullId (Some mn) n) = ext (FullId (Some mn) n)).
Proof.
  intros file m0 m src scopes mn n ext H R S. apply load_exact in H.
  destruct H as (src' & name & R' & F & NS & ->). rewrite (reads_det _ _ _ R' R) in *. clear R'.
  pose proof (fun t => global_exact name src n t (proj1 F)) as D.
  assert (DI : forall t, local_index m n [] = Ok t <-> defined src None n t).
  { intros t. rewrite (scopes_index _ _ _ _ S), module_of_index. apply D. }
  assert (NM : module_named src name) by (apply names_ok_named; [intros s; eapply reads_modules; exact R|apply F]).
  assert (NU : forall mn, module_named src mn -> mn = name).
  { intros mn' M. destruct F as (_ & _ & F). assert (O : one_module src).
    { unfold one_module. apply -> names_ok_exact; [eauto|intros s; eapply reads_modules; exact R]. }
    destruct M as [(d & ty & I & DM & A)|[NO ->]], NM as [(d' & ty' & I' & DM' & A')|[NO' ->]].
    - assert (d = d') as <-; [|congruence].
      apply in_split in I. destruct I as (a & b & E). rewrite E in I'. apply in_app_iff in I'.
      destruct I' as [I'|[I'|I']].
      + apply in_split in I'. destruct I' as (a1 & a2 & ->). exfalso. rewrite <- app_assoc in E. cbn in E.
        refine (O a1 (SDir d') a2 (SDir d) b E _ _); eexists; eauto.
      + congruence.
      + apply in_split in I'. destruct I' as (b1 & b2 & ->). exfalso.
        refine (O a (SDir d) b1 (SDir d') b2 E _ _); eexists; eauto.
    - destruct (NO' _ I). exists d. auto.
    - destruct (NO _ I'). exists d'. auto.
    - reflexivity. }
  assert (MN : md_name m = name) by apply S.
  unfold module_ctx. cbn [fi_module fi_name]. rewrite MN. split.
  - intros t M T. rewrite (NU _ M), String.eqb_refl. pose proof T as T'. destruct T' as [p T'].
    apply label_at_range in T'. apply DI in T. rewrite T.
    assert (ZL : zlen (md_lines m) = zlen src).
    { destruct S as (_ & _ & S). apply (f_equal zlen) in S. rewrite !zlen_map in S. rewrite S. apply mk_lines_len. }
    destruct (znth_in_range _ (md_lines m) t) as [l' L']; [lia|]. exists l'. unfold local_lookup. rewrite L'.
    split; [|reflexivity]. rewrite nat_znth, Z2Nat.id by lia. exact L'.
  - intros N. destruct (String.eqb_spec mn name) as [->|NE]; [|reflexivity].
    destruct (local_index_outcome m n []) as [[t T]|E]; [|rewrite E; reflexivity].
    destruct N. split; [exact NM|]. exists t. apply DI. exact T.
Qed.

(** ** Dependencies. *)
Lemma named_unique : forall file src name mn, reads file src -> names_ok (map snd src) name ->
  (module_named src mn <-> mn = name).
Proof.
  intros file src name mn R F.
  assert (NM : module_named src name) by (apply names_ok_named; [intros s; eapply reads_modules; exact R|exact F]).
  split; [|intros ->; exact NM].
  intros M. assert (O : one_module src).
  { unfold one_module. apply -> names_ok_exact; [eauto|intros s; eapply reads_modules; exact R]. }
  destruct M as [(d & ty & I & DM & A)|[NO ->]], NM as [(d' & ty' & I' & DM' & A')|[NO' ->]].
  - assert (d = d') as <-; [|congruence].
    apply in_split in I. destruct I as (a & b & E). rewrite E in I'. apply in_app_iff in I'.
    destruct I' as [I'|[I'|I']].
    + apply in_split in I'. destruct I' as (a1 & a2 & ->). exfalso. rewrite <- app_assoc in E. cbn in E.
      refine (O a1 (SDir d') a2 (SDir d) b E _ _); eexists; eauto.
    + congruence.
    + apply in_split in I'. destruct I' as (b1 & b2 & ->). exfalso.
      refine (O a (SDir d) b1 (SDir d') b2 E _ _); eexists; eauto.
  - destruct (NO' _ I). exists d. auto.
  - destruct (NO _ I'). exists d'. auto.
  - reflexivity.
Qed.

Lemma external_names_in : forall isl e id, In id (external_names isl e) <->
  exists id', mentions e id' /\ isl id' = false /\
    id = FullId (Some (match fi_module id' with Some mn => mn | None => ""%string end)) (fi_name id').
Proof.
  intros isl e. induction e as [v t|id' t|o l IHl r IHr|o a IHa|s h IHh]; intros id; cbn [external_names mentions].
  - split; [intros []|intros (? & [] & _)].
  - destruct (isl id') eqn:E.
    + split; [intros []|]. intros (x & -> & X & _). congruence.
    + destruct id' as [[mn|] n]; cbn; (split; [intros [<-|[]]; eexists; split; [reflexivity|split; [exact E|reflexivity]]|]);
        intros (x & -> & _ & ->); left; reflexivity.
  - rewrite in_app_iff, IHl, IHr. split.
    + intros [(x & M & X)|(x & M & X)]; exists x; auto.
    + intros (x & [M|M] & X); [left|right]; exists x; auto.
  - apply IHa.
  - split; [intros []|intros (? & [] & _)].
Qed.

Lemma own_ctx : forall file src name before s after id, reads file src -> fine_source name src ->
  src = before ++ s :: after ->
  (is_local_ctx (module_of name src) (stack (map snd before)) id = true <-> is_own src (zlen before) id).
Proof.
  intros file src name before s after [[mn|] n] R F E; unfold is_local_ctx, is_own; cbn [fi_module fi_name].
  - rewrite (named_unique _ _ _ _ R (proj2 (proj2 F))). change (md_name (module_of name src)) with name.
    destruct (String.eqb_spec mn name) as [->|NE]; [|split; [discriminate|intros [? _]; contradiction]].
    pose proof (fun t => global_exact name src n t (proj1 F)) as D.
    change (local_index (module_of name src) n []) with (local_index (closed name src) n []).
    destruct (local_index_outcome (closed name src) n []) as [[t T]|T]; rewrite T; cbn.
    + split; [|reflexivity]. intros _. split; [reflexivity|]. exists t. apply D. exact T.
    + split; [discriminate|]. intros [_ [t X]]. apply D in X. congruence.
  - pose proof (lookup_exact name before (s :: after) n) as D. rewrite <- E in D.
    change (local_index (module_of name src) n (stack (map snd before)))
      with (local_index (closed name src) n (stack (map snd before))).
    destruct (local_index_outcome (closed name src) n (stack (map snd before))) as [[t T]|T]; rewrite T; cbn.
    + split; [|reflexivity]. intros _. exists t. apply D; [apply F|exact T].
    + split; [discriminate|]. intros [t X]. apply D in X; [congruence|apply F].
Qed.

Lemma deps_exact : forall file m src id, load_asm_file file = Ok m -> reads file src ->
  (In id (md_deps m) <-> needs src id).
Proof.
  intros file m src id H R. apply load_exact in H. destruct H as (src' & name & R' & F & N & ->).
  rewrite (reads_det _ _ _ R' R) in *. clear R'.
  unfold module_of at 1. cbn [md_with_deps md_deps]. unfold compute_deps. rewrite in_flat_map.
  change (md_lines (closed name src)) with (mk_lines (dlist src) 0 [] src). unfold needs. split.
  - intros (l & I & J). apply in_znth in I. destruct I as [k K]. apply mk_lines_nth in K.
    destruct K as (before & labels & s & after & E & LB & ->). cbn [ln_stmt ln_scopes] in J.
    destruct s as [i|d]; [destruct J|]. destruct (d_name d) eqn:DN; try destruct J.
    destruct (d_arg d) as [e|] eqn:A; [|destruct J]. cbn [external_names_opt] in J. apply external_names_in in J.
    destruct J as (id' & M & L & ->). exists before, labels, d, e, after, id'. repeat split; auto.
    intros O. change (Z.of_nat (List.length before)) with (zlen before) in O.
    apply (own_ctx _ _ name _ _ _ _ R F E) in O.
    change (is_local_ctx (module_of name src)) with (is_local_ctx (closed name src)) in O. congruence.
  - intros (before & labels & d & e & after & id' & E & DN & A & M & O & ->).
    pose proof (mk_lines_at (dlist src) before labels (SDir d) after) as L. rewrite <- E in L.
    eexists. split; [eapply znth_in; exact L|]. cbn [ln_stmt ln_scopes]. rewrite DN, A. cbn [external_names_opt].
    apply external_names_in. exists id'. split; [exact M|]. split; [|reflexivity].
    apply Bool.not_true_is_false. intros X. apply O.
    apply (own_ctx _ _ name _ _ _ _ R F E). exact X.
Qed.

(** Computing what a file reads as. *)
Fixpoint read_file (file : list string) : option (list (list parsed)) :=
  match file with
  | [] => Some []
  | line :: file' =>
      match tokenize line with
      | Ok ts => match parse ts, read_file file' with Ok es, Some ess => Some (es :: ess) | _, _ => None end
      | _ => None
      end
  end.
Lemma read_file_ok : forall file ess, read_file file = Some ess -> reads file (statements [] (concat ess)).
Proof.
  intros file ess H. exists ess. split; [|reflexivity]. revert ess H.
  induction file as [|line file IH]; intros ess H; cbn [read_file] in H; [injection H as <-; constructor|].
  destruct (tokenize line) as [ts|e|u|] eqn:T; [|discriminate H..].
  destruct (parse ts) as [es|e|u|] eqn:P; [|discriminate H..].
  destruct (read_file file) as [ess'|]; [|discriminate]. injection H as <-. constructor; [eauto|apply IH; reflexivity].
Qed.
Definition denoted (file : list string) (k : nat) (n : string) : option (option Z) :=
  match load_asm_file file with
  | Ok m =>
      match nth_error (md_lines m) k with
      | Some l => match local_index m n (ln_scopes l) with Ok t => Some (Some t) | _ => Some None end
      | None => None
      end
  | _ => None
  end.
Lemma denoted_ok : forall file src k n r, reads file src -> denoted file k n = Some r ->
  forall t, denotes src (Z.of_nat k) n t <-> r = Some t.
Proof.
  intros file src k n r R D t. unfold denoted in D. destruct (load_asm_file file) as [m|e|u|] eqn:L; [|discriminate D..].
  destruct (nth_error (md_lines m) k) as [l|] eqn:E; [|discriminate D].
  assert (S : same_scopes m m) by (split; [reflexivity|split; reflexivity]).
  rewrite <- (lookup_denotes _ _ _ _ _ _ n t L R S E).
  destruct (local_index m n (ln_scopes l)); injection D as <-; split; congruence.
Qed.

(** Proofs about the placement of statements. *)
From Verif Require Import BaseProofs ModelNumeric ModelAddress ModelMnemonic ModelExpr ModelInstr ModelState
  ModelStatement ModelMap ModelRanges ModelModule SpecArith ArithProofs MapProofs SpecScope SpecLayout LoadProofs
  ScopeProofs PassProofs.
Open Scope list_scope.

Lemma is_dir_dec : forall n s, stmt_is_dir n s = true <-> is_dir n s.
Proof.
  intros n [i|d]; cbn; [split; [discriminate|intros (d & E & _); discriminate E]|]. split.
  - intros H. exists d. split; [reflexivity|]. destruct (d_name d), n; try reflexivity; discriminate H.
  - intros (d' & E & <-). injection E as <-. destruct (d_name d); reflexivity.
Qed.
Lemma org_at_dir : forall s a, org_at s a -> is_dir D_org s.
Proof. intros s a (d & e & v & -> & D & _). exists d. auto. Qed.
Lemma org_at_range : forall s a, org_at s a -> 0 <= a <= 2 ^ 24.
Proof. intros s a (d & e & v & _ & _ & _ & _ & -> & L). split; [apply Z.mod_pos_bound; lia|exact L]. Qed.
Lemma org_at_fun : forall s a b, org_at s a -> org_at s b -> a = b.
Proof.
  intros s a b (d & e & v & -> & _ & A & M & -> & _) (d' & e' & v' & E & _ & A' & M' & -> & _).
  injection E as <-. rewrite A in A'. injection A' as <-. f_equal. exact (means_functional null_ctx e v v' M M').
Qed.

Lemma next_address_range : forall ss a, next_address ss (Some a) -> addr24 a.
Proof.
  intros ss a H. remember (Some a) as p eqn:E. revert a E.
  induction H as [|ss s a0 O|ss s a0 H IH N|ss s H IH N]; intros a E; try discriminate; injection E as <-.
  - apply Z.mod_pos_bound. lia.
  - apply same_bank_plus_24. apply IH. reflexivity.
Qed.
Lemma next_address_snoc : forall ss s p, next_address (ss ++ [s]) p ->
  (exists a, org_at s a /\ p = Some (a mod 2 ^ 24)) \/
  (~ is_dir D_org s /\ exists a, next_address ss (Some a) /\ p = Some (same_bank_plus a (stmt_size s))) \/
  (~ is_dir D_org s /\ next_address ss None /\ p = None).
Proof.
  intros ss s p H. inversion H as [E|ss' s' a O E|ss' s' a N D E|ss' s' N D E].
  - destruct ss; discriminate.
  - apply app_inj_tail in E. destruct E as [-> ->]. left. eauto.
  - apply app_inj_tail in E. destruct E as [-> ->]. right. left. eauto.
  - apply app_inj_tail in E. destruct E as [-> ->]. right. right. auto.
Qed.
Lemma next_address_fun : forall ss p q, next_address ss p -> next_address ss q -> p = q.
Proof.
  induction ss as [|s ss IH] using rev_ind; intros p q P Q.
  - inversion P as [|? ? ? ? E|? ? ? ? ? E|? ? ? ? E]; [|destruct ss; discriminate..].
    inversion Q as [|? ? ? ? E|? ? ? ? ? E|? ? ? ? E]; [reflexivity|destruct ss; discriminate..].
  - apply next_address_snoc in P, Q.
    destruct P as [(a & A & ->)|[(N & a & A & ->)|(N & A & ->)]],
             Q as [(b & B & ->)|[(M & b & B & ->)|(M & B & ->)]].
    + rewrite (org_at_fun _ _ _ A B). reflexivity.
    + destruct M. eapply org_at_dir. exact A.
    + destruct M. eapply org_at_dir. exact A.
    + destruct N. eapply org_at_dir. exact B.
    + pose proof (IH _ _ A B) as E. injection E as ->. reflexivity.
    + pose proof (IH _ _ A B) as E. discriminate.
    + destruct N. eapply org_at_dir. exact B.
    + pose proof (IH _ _ A B) as E. discriminate.
    + reflexivity.
Qed.

Definition placed (before : list statement) (s : statement) (a : Z) : Prop :=
  org_at s a \/ ~ is_dir D_org s /\ ~ is_dir D_equ s /\ next_address before (Some a).

Lemma placed_fun : forall before s a b, placed before s a -> placed before s b -> a = b.
Proof.
  intros before s a b [O|(N1 & N2 & N)] [O'|(N1' & N2' & N')].
  - exact (org_at_fun _ _ _ O O').
  - destruct N1'. eapply org_at_dir. exact O.
  - destruct N1. eapply org_at_dir. exact O'.
  - pose proof (next_address_fun _ _ _ N N') as X. congruence.
Qed.
Lemma located_at : forall before s after a, located (before ++ s :: after) (List.length before) a <-> placed before s a.
Proof.
  intros before s after a. split.
  - intros (b & s' & c & E & L & P). assert (b = before /\ s' = s) as [-> ->]; [|exact P].
    pose proof (f_equal (firstn (List.length before)) E) as F.
    rewrite firstn_app, firstn_all, Nat.sub_diag in F. cbn in F. rewrite app_nil_r in F.
    rewrite <- L, firstn_app, firstn_all, Nat.sub_diag in F. cbn in F. rewrite app_nil_r in F. subst b.
    apply app_inv_head in E. injection E as <- _. auto.
  - intros P. exists before, s, after. auto.
Qed.

Lemma org_eval : forall d a, (let* v := eval_opt null_ctx (d_arg d) in let* a := mk_address v in Ok (Some a)) = Ok (Some a) ->
  d_name d = D_org -> org_at (SDir d) a.
Proof.
  intros d a H D. bok H as v E. bok H as a' A. injection H as ->.
  destruct (d_arg d) as [e|] eqn:DA; [|discriminate E]. cbn in E. apply eval_means in E.
  unfold mk_address in A. destruct (Z.leb_spec (to_uint32 v) 16777216) as [L|L]; [|discriminate A]. injection A as <-.
  exists d, e, v. repeat split; auto.
Qed.

Lemma layout_spec : forall ls before pc ls', next_address before pc -> layout pc ls = Ok ls' ->
  map ln_stmt ls' = map ln_stmt ls /\
  forall a l b, ls = a ++ l :: b -> exists l', nth_error ls' (List.length a) = Some l' /\ ln_stmt l' = ln_stmt l /\
    ((exists v, placed (before ++ map ln_stmt a) (ln_stmt l) v /\ ln_value l' = Some v) \/
     (forall v, ~ placed (before ++ map ln_stmt a) (ln_stmt l) v) /\ stmt_size (ln_stmt l) <= 0 /\ ln_value l' = ln_value l).
Proof.
  induction ls as [|l ls IH]; intros before pc ls' N H; cbn [layout] in H.
  - injection H as <-. split; [reflexivity|]. intros [|x a] l b E; discriminate E.
  - bok H as pc' E.
    assert (C : (exists a, org_at (ln_stmt l) a /\ pc' = Some a) \/ (~ is_dir D_org (ln_stmt l) /\ pc' = pc)).
    { destruct (ln_stmt l) as [i|d] eqn:S; [injection E as <-; right; split; [intros (d & X & _); discriminate X|reflexivity]|].
      destruct (d_name d) eqn:D; try (injection E as <-; right; split; [intros (d' & X & Y); injection X as <-; congruence|reflexivity]).
      left. destruct pc' as [a|].
      - exists a. split; [apply org_eval; assumption|reflexivity].
      - exfalso. bok E as v V. bok E as a A. discriminate E. }
    clear E.
    assert (NX : forall p, pc' = Some p ->
              next_address (before ++ [ln_stmt l]) (Some (add_wrapped p (stmt_size (ln_stmt l))))).
    { intros p ->. destruct C as [(a & O & A)|(NO & <-)].
      - injection A as ->. replace (add_wrapped a (stmt_size (ln_stmt l))) with (a mod 2 ^ 24); [apply na_org; exact O|].
        destruct O as (d & e & v & -> & D & _ & _ & -> & L). unfold stmt_size, directive_size. rewrite D.
        unfold add_wrapped. rewrite land_ff0000, land_ffff. rewrite to_uint32_small by lia.
        rewrite lor_16 by lia. lia.
      - rewrite add_wrapped_spec by (eapply next_address_range; exact N). apply na_later; assumption. }
    destruct pc' as [p|].
    + bok H as rest R. injection H as <-. destruct (IH _ _ _ (NX p eq_refl) R) as [M F]. split.
      * cbn [map]. rewrite M. f_equal. destruct (stmt_is_dir D_equ (ln_stmt l)); reflexivity.
      * intros [|x a] y b E; injection E as <- ->.
        -- cbn [List.length nth_error map]. rewrite app_nil_r. eexists. split; [reflexivity|].
           split; [destruct (stmt_is_dir D_equ (ln_stmt l)); reflexivity|].
           destruct (stmt_is_dir D_equ (ln_stmt l)) eqn:Q.
           ++ apply is_dir_dec in Q. right. split; [|split; [|reflexivity]].
              ** intros v [O|(_ & NE & _)]; [|contradiction].
                 apply org_at_dir in O. destruct O as (d1 & E1 & D1), Q as (d2 & E2 & D2). congruence.
              ** destruct Q as (d & -> & D). cbn. unfold directive_size. rewrite D. lia.
           ++ left. cbn [ln_value ln_with_value]. destruct C as [(a & O & A)|(NO & <-)].
              ** injection A as ->. exists a. split; [left; exact O|]. f_equal.
                 apply label_of_address_id. apply org_at_range in O. lia.
              ** exists p. split.
                 --- right. split; [exact NO|]. split; [|exact N]. rewrite <- is_dir_dec, Q. discriminate.
                 --- f_equal. apply label_of_address_id. apply next_address_range in N. unfold addr24 in N. lia.
        -- destruct (F a y b eq_refl) as (l' & L' & S & P). exists l'. split; [exact L'|]. split; [exact S|].
           cbn [map]. rewrite <- app_assoc in P. cbn in P. exact P.
    + destruct (Z.ltb_spec 0 (stmt_size (ln_stmt l))) as [Z|Z]; [discriminate H|]. bok H as rest R. injection H as <-.
      destruct C as [(a & O & A)|(NO & <-)]; [discriminate A|].
      destruct (IH _ _ _ (na_before _ _ N NO) R) as [M F]. split; [cbn [map]; rewrite M; reflexivity|].
      intros [|x a] y b E; injection E as <- ->.
      * cbn [List.length nth_error map]. rewrite app_nil_r. exists l. split; [reflexivity|]. split; [reflexivity|]. right. split; [|split; [lia|reflexivity]].
        intros v [O|(_ & _ & N')]; [destruct NO; eapply org_at_dir; exact O|].
        pose proof (next_address_fun _ _ _ N N') as X. discriminate X.
      * destruct (F a y b eq_refl) as (l' & L' & S & P). exists l'. split; [exact L'|]. split; [exact S|].
        cbn [map]. rewrite <- app_assoc in P. cbn in P. exact P.
Qed.

(** ** The first pass as a whole. *)
Definition line_core (l : line) := (ln_stmt l, ln_value l).
Lemma zset_core : forall ls k l l', znth ls k = Some l -> line_core l' = line_core l ->
  map line_core (zset k l' ls) = map line_core ls.
Proof.
  intros ls k l l' H E. apply znth_split in H. destruct H as (a & b & -> & K). rewrite <- K, zset_mid.
  rewrite !map_app. cbn [map]. rewrite E. reflexivity.
Qed.
Lemma first_pass_step_core : forall m ls st ls' st', first_pass_step m ls st = Ok (ls', st') ->
  map line_core ls' = map line_core ls.
Proof.
  intros m ls [|[k cur] rest] ls' st' H; unfold first_pass_step in H; [injection H as <- _; reflexivity|].
  destruct (k =? zlen ls); [discriminate|]. destruct (znth ls k) as [l|] eqn:L; [|discriminate].
  destruct (ln_reached l && es_eqb (ln_in l) cur); [injection H as <- _; reflexivity|].
  assert (Z0 : map line_core (zset k (ln_visit cur l) ls) = map line_core ls) by (apply (zset_core _ _ l); auto).
  bok H as next E. destruct (ln_stmt l) as [i|d]; [|injection H as <- _; exact Z0].
  destruct (is_local_branch i); [|injection H as <- _; exact Z0].
  destruct (simple_identifier_opt (i_arg1 i)); [|discriminate].
  destruct (local_index m s (ln_scopes l)) as [idx|e|u|]; [|discriminate H..]. bok H as n2 E2. injection H as <- _. exact Z0.
Qed.
Lemma first_pass_loop_core : forall fuel m ls st ls', first_pass_loop fuel m ls st = Ok ls' ->
  map line_core ls' = map line_core ls.
Proof.
  induction fuel as [|f IH]; intros m ls [|p st] ls' H; cbn [first_pass_loop] in H; try (injection H as <-; reflexivity); [discriminate|].
  bok H as q E. destruct q as [ls1 st1]. apply first_pass_step_core in E. apply IH in H. congruence.
Qed.

(** A line after its addressing mode was fixed. *)
Definition resolves_to (l l' : line) : Prop :=
  match ln_stmt l with
  | SInstr i => ln_reached l = true /\ exists i', fix_addressing_mode i (es_flags (ln_in l)) = Ok i' /\
                l' = ln_with_stmt (SInstr i') l
  | SDir _ => l' = l
  end.
Lemma fix_modes_spec : forall ls ls', fix_modes ls = Ok ls' -> Forall2 resolves_to ls ls'.
Proof.
  induction ls as [|l ls IH]; intros ls' H; cbn [fix_modes] in H; [injection H as <-; constructor|].
  bok H as l1 E. bok H as rest R. injection H as <-. constructor; [|auto]. unfold resolves_to.
  destruct (ln_stmt l); [|injection E as <-; reflexivity]. destruct (ln_reached l); [|discriminate E].
  cbn in E. bok E as i' F. injection E as <-. split; [reflexivity|]. eauto.
Qed.
Lemma fix_modes_values : forall ls ls', fix_modes ls = Ok ls' -> map ln_value ls' = map ln_value ls.
Proof.
  intros ls ls' H. apply fix_modes_spec in H. induction H as [|l l' ls ls' R F IH]; [reflexivity|]. cbn. rewrite IH. f_equal.
  unfold resolves_to in R. destruct (ln_stmt l); [destruct R as (_ & i' & _ & ->); reflexivity|subst; reflexivity].
Qed.

Lemma first_pass_layout : forall fuel m m', run_first_pass fuel m = Ok m' ->
  (forall l, In l (md_lines m) -> ln_value l = None) ->
  forall k l, nth_error (md_lines m') k = Some l ->
  (forall v, ln_value l = Some v <-> located (map ln_stmt (md_lines m')) k v) /\
  (0 < stmt_size (ln_stmt l) -> exists v, ln_value l = Some v).
Proof.
  intros fuel m m' H NV k l' K. unfold run_first_pass in H. bok H as ls E. bok H as ls2 E2. bok H as ls3 E3. injection H as <-.
  cbn [md_with_lines md_lines] in *.
  destruct (layout_spec _ [] _ _ na_none E3) as [M F]. rewrite M.
  assert (L : (k < List.length ls2)%nat).
  { rewrite <- (map_length ln_stmt ls2), <- M, map_length. apply nth_error_Some. congruence. }
  destruct (nth_error ls2 k) as [l|] eqn:L2; [|apply nth_error_None in L2; lia].
  pose proof (nth_error_split _ _ L2) as (a & b & EQ & LA).
  destruct (F a l b EQ) as (l'' & K' & S & P). rewrite LA, K in K'. injection K' as <-.
  cbn [app] in P.
  assert (VN : ln_value l = None).
  { apply fix_modes_values in E2. apply first_pass_loop_core in E. assert (In (ln_value l) (map ln_value (md_lines m))).
    - replace (map ln_value (md_lines m)) with (map ln_value ls).
      + rewrite <- E2. apply in_map. rewrite EQ. apply in_or_app. right. left. reflexivity.
      + apply (f_equal (map snd)) in E. rewrite !map_map in E. exact E.
    - apply in_map_iff in H. destruct H as (x & <- & I). apply NV. exact I. }
  assert (LO : forall v, located (map ln_stmt ls2) k v <-> placed (map ln_stmt a) (ln_stmt l) v).
  { intros v. rewrite EQ, map_app. cbn [map]. rewrite <- LA, <- (map_length ln_stmt a). apply located_at. }
  rewrite S. destruct P as [(v & P & V)|(NP & Z & V)].
  - split; [|eauto]. intros w. rewrite LO, V. split; [intros X; injection X as <-; exact P|].
    intros P'. f_equal. exact (placed_fun _ _ _ _ P P').
  - rewrite V, VN. split; [|lia]. intros w. rewrite LO. split; [discriminate|]. intros X. destruct (NP w X).
Qed.

Lemma loaded_fresh : forall file m, load_asm_file file = Ok m ->
  forall l, In l (md_lines m) -> ln_value l = None /\ ln_reached l = false.
Proof.
  intros file m H l I. apply load_exact in H. destruct H as (src & name & _ & _ & _ & ->).
  change (md_lines (module_of name src)) with (mk_lines (dlist src) 0 [] src) in I.
  apply in_znth in I. destruct I as [k K]. apply mk_lines_nth in K. destruct K as (b & la & s & af & _ & _ & ->).
  split; reflexivity.
Qed.
Lemma layout_located : forall file fuel m m', load_asm_file file = Ok m -> run_first_pass fuel m = Ok m' ->
  forall k l, nth_error (md_lines m') k = Some l ->
  (forall v, ln_value l = Some v <-> located (map ln_stmt (md_lines m')) k v) /\
  (0 < stmt_size (ln_stmt l) -> exists v, ln_value l = Some v).
Proof.
  intros file fuel m m' L H. eapply first_pass_layout; [exact H|]. intros l I. eapply loaded_fresh; eassumption.
Qed.

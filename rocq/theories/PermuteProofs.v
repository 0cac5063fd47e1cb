(** Proofs that the order of the files does not decide what is assembled. *)
From Coq Require Import Permutation.
From Verif Require Import BaseProofs ModelNumeric ModelAddress ModelMnemonic ModelAMode ModelOpcode ModelExpr ModelInstr ModelState
  ModelToken ModelStatement ModelParse ModelMap ModelRanges ModelModule ModelAssembler SpecArith ArithProofs SpecRanges RangesProofs SpecInstr
  InstrProofs MapProofs SpecScope SpecLayout SpecOrder OrderProofs LoadProofs ScopeProofs PassProofs LayoutProofs
  SpecAssemble AssembleProofs SpecSink SinkProofs ProgramProofs SpecText ShowProofs.
Open Scope string_scope.
Open Scope list_scope.
Open Scope Z_scope.

(** ** Evaluating where the names needed are known. *)
Lemma mentions_means : forall env env' e v, expr_ok e -> (forall id w, mentions e id -> env id = Some w -> env' id = Some w) -> means env e v -> means env' e v.
Proof.
  intros env env' e v OK H M. induction M; cbn [mentions expr_ok] in *; try contradiction OK;
    try (econstructor; eauto; fail);
    try (destruct OK as [O1 O2]; econstructor; eauto; fail).
Qed.
Lemma eval_mentions : forall c c' e v, expr_ok e -> (forall id w, mentions e id -> c id = Ok w -> c' id = Ok w) -> eval c e = Ok v -> eval c' e = Ok v.
Proof.
  intros c c' e v OK H E. apply means_eval. eapply mentions_means; [exact OK| |apply eval_means; exact E].
  intros id w M X. unfold env_of in *. destruct (c id) as [u|x|x|] eqn:C; try discriminate X. injection X as ->. rewrite (H id w M C). reflexivity.
Qed.
Definition equs_ok (m : module) : Prop := forall d, In (SDir d) (map ln_stmt (md_lines m)) -> d_name d = D_equ -> exists e, d_arg d = Some e /\ expr_ok e.
Lemma deps_eval : forall m l d e ext ext' v, In l (md_lines m) -> ln_stmt l = SDir d -> d_name d = D_equ -> d_arg d = Some e -> expr_ok e ->
  (forall id w, In id (compute_deps m) -> ext id = Ok w -> ext' id = Ok w) ->
  eval (module_ctx m (ln_scopes l) ext) e = Ok v -> eval (module_ctx m (ln_scopes l) ext') e = Ok v.
Proof.
  intros m l d e ext ext' v L S D A OK H. apply eval_mentions; [exact OK|]. intros id w M.
  assert (X : is_local_ctx m (ln_scopes l) id = false -> In (FullId (Some (match fi_module id with Some mn => mn | None => "" end)) (fi_name id)) (compute_deps m)).
  { intros N. unfold compute_deps. apply in_flat_map. exists l. split; [exact L|]. rewrite S, D, A. cbn [external_names_opt]. apply external_names_in. eauto. }
  unfold module_ctx, is_local_ctx in *. destruct id as [[mn|] n]; cbn [fi_module fi_name] in *.
  - destruct (String.eqb mn (md_name m)); [|intros Y; apply H; [apply X; reflexivity|exact Y]].
    destruct (local_index m n []); [exact (fun z => z)|intros Y; apply H; [apply X; reflexivity|exact Y]..].
  - destruct (local_index m n (ln_scopes l)); [exact (fun z => z)|intros Y; apply H; [apply X; reflexivity|exact Y]..].
Qed.
Lemma grows_local : forall m m' sc id, grows m m' -> is_local_ctx m' sc id = is_local_ctx m sc id.
Proof.
  intros m m' sc id G. pose proof (grows_scopes _ _ G) as S. unfold is_local_ctx. rewrite (proj1 G).
  destruct (fi_module id); rewrite (scopes_index _ _ _ _ S); reflexivity.
Qed.
Lemma external_ext : forall f g e, (forall id, f id = g id) -> external_names f e = external_names g e.
Proof. intros f g e H. induction e; cbn; rewrite ?H, ?IHe, ?IHe1, ?IHe2; reflexivity. Qed.
Lemma scopes_local : forall m m' sc id, same_scopes m m' -> is_local_ctx m' sc id = is_local_ctx m sc id.
Proof.
  intros m m' sc id S. unfold is_local_ctx. rewrite (proj1 S). destruct (fi_module id); rewrite (scopes_index _ _ _ _ S); reflexivity.
Qed.
(** Only the names, scopes and directives of a module decide its dependencies. *)
Lemma deps_same : forall m m', same_scopes m m' ->
  Forall2 (fun l l' => ln_scopes l' = ln_scopes l /\ forall d, ln_stmt l' = SDir d <-> ln_stmt l = SDir d) (md_lines m) (md_lines m') -> compute_deps m' = compute_deps m.
Proof.
  intros m m' S F. unfold compute_deps. induction F as [|l l' ls ls' [A B] F IH]; [reflexivity|]. cbn [flat_map]. f_equal; [|exact IH]. rewrite A.
  destruct (ln_stmt l) as [i|d] eqn:E.
  - destruct (ln_stmt l') as [i'|d'] eqn:E'; [reflexivity|]. pose proof (proj1 (B d') eq_refl) as X. discriminate X.
  - rewrite (proj2 (B d) eq_refl). destruct (d_name d); try reflexivity. destruct (d_arg d) as [e|]; [|reflexivity]. cbn [external_names_opt].
    apply external_ext. intros id. apply scopes_local. exact S.
Qed.
Lemma grows_deps : forall m m', grows m m' -> compute_deps m' = compute_deps m.
Proof.
  intros m m' G. apply deps_same; [apply grows_scopes; exact G|]. destruct G as (_ & _ & _ & _ & _ & _ & _ & F).
  eapply Forall2_impl'; [|exact F]. intros l l' [->|(_ & _ & v & ->)]; split; reflexivity.
Qed.
Lemma grows_equs : forall m m', grows m m' -> equs_ok m -> equs_ok m'.
Proof. intros m m' G E d I. rewrite (grows_stmts _ _ G) in I. apply E. exact I. Qed.

(** ** The second pass where the names needed are known. *)
Lemma second_transfer : forall n k ext ext' m m', equs_ok m ->
  (forall cur id v, grows m cur -> grows cur m' -> In id (compute_deps m) -> ext cur id = Ok v -> ext' cur id = Ok v) ->
  ctx_mono ext -> 0 <= k -> second_pass_loop n k ext m = Ok m' -> second_pass_loop n k ext' m = Ok m' /\ grows m m'.
Proof.
  induction n as [|n IH]; intros k ext ext' m m' EQ H MO K0 R; cbn [second_pass_loop] in *; [injection R as <-; split; [reflexivity|apply grows_refl]|].
  destruct (znth (md_lines m) k) as [l|] eqn:L; [|injection R as <-; split; [reflexivity|apply grows_refl]].
  bok R as m1 E.
  assert (C : m1 = m /\ (match ln_stmt l with SDir d => match d_name d, ln_value l with D_equ, None => False | _, _ => True end | SInstr _ => True end) \/
    exists d e v, ln_stmt l = SDir d /\ d_name d = D_equ /\ ln_value l = None /\ d_arg d = Some e /\
      eval (module_ctx m (ln_scopes l) (ext m)) e = Ok v /\ m1 = md_with_lines (zset k (ln_with_value v l) (md_lines m)) m).
  { destruct (ln_stmt l) as [i|d]; [injection E as <-; left; auto|].
    destruct (d_name d) eqn:D; try (injection E as <-; left; auto; fail).
    destruct (ln_value l) as [w|] eqn:V; [injection E as <-; left; auto|].
    bok E as v EV. injection E as <-. right. destruct (d_arg d) as [e|] eqn:A; [|discriminate EV].
    exists d, e, v. repeat split; auto. }
  assert (G1 : grows m m1).
  { destruct C as [[-> _]|(d & e & v & SS & DD & N & _ & _ & ->)]; [apply grows_refl|].
    repeat split. cbn [md_lines md_with_lines]. eapply zset_grows; [exact L|]. right. split; [exact N|]. split; [exists d; auto|eauto]. }
  destruct (IH (k + 1) ext ext' m1 m' (grows_equs _ _ G1 EQ)) as [R' G2]; [|exact MO|lia|exact R|].
  { intros cur id v GA GB I. apply H; [eapply grows_trans; eassumption|exact GB|]. rewrite <- (grows_deps _ _ G1). exact I. }
  assert (G : grows m m') by (eapply grows_trans; eassumption). split; [|exact G].
  destruct C as [[-> C]|(d & e & v & SS & DD & N & A & EV & ->)].
  - destruct (ln_stmt l) as [i|d]; [exact R'|]. destruct (d_name d); try exact R'. destruct (ln_value l); [exact R'|contradiction].
  - rewrite SS, DD, N, A. cbn [eval_opt]. destruct (EQ d) as (e' & A' & OK); [rewrite <- SS; apply in_map; eapply znth_in; exact L|exact DD|].
    rewrite A in A'. injection A' as <-.
    rewrite (deps_eval m l d e (ext m) (ext' m) v); [cbn [bind]; exact R'|eapply znth_in; exact L|assumption..| |exact EV].
    intros id w I. apply H; [apply grows_refl|exact G|exact I].
Qed.

(** ** All second passes. *)
Lemma second_each : forall order names ms ms', NoDup order -> second_passes order names ms = Ok ms' ->
  Forall2 grows ms ms' /\ (forall i, ~ In i order -> znth ms' i = znth ms i) /\
  forall i, In i order -> exists m m' msc, znth ms i = Some m /\ znth ms' i = Some m' /\ Forall2 grows msc ms' /\ znth msc i = Some m /\
    run_second_pass (fun cur => assembler_ctx (zset i cur msc) names) m = Ok m'.
Proof.
  induction order as [|i order IH]; intros names ms ms' ND H; cbn [second_passes] in H.
  - injection H as <-. split; [apply Forall2_refl; apply grows_refl|]. split; [reflexivity|]. intros i [].
  - destruct (znth ms i) as [m|] eqn:M; [|discriminate H]. bok H as m1 E. inversion ND as [|? ? NI ND']; subst.
    assert (MO : ctx_mono (fun cur => assembler_ctx (zset i cur ms) names)).
    { intros a b G. apply grows_assembler. apply Forall2_zset; [apply Forall2_refl; apply grows_refl|exact G]. }
    destruct (second_loop_spec _ _ _ _ _ MO (Z.le_refl 0) E) as [G _]; [unfold zlen; lia|].
    pose proof (zset_same_grows _ _ _ _ M G) as G1. destruct (IH _ _ _ ND' H) as (G2 & O2 & W).
    assert (G12 : Forall2 grows ms ms') by (eapply Forall2_trans; [exact grows_trans|exact G1|exact G2]).
    split; [exact G12|]. split.
    + intros j J. cbn in J. rewrite O2 by tauto. apply znth_zset_other. intros ->. apply J. left. reflexivity.
    + intros j [<-|J].
      * exists m, m1, ms. split; [exact M|]. split; [rewrite (O2 i NI); apply znth_zset_same; eapply znth_some; exact M|]. auto.
      * destruct (W j J) as (mj & mj' & msc & A & B & C & D & R). exists mj, mj', msc.
        rewrite znth_zset_other in A by congruence. auto.
Qed.

(** ** Assembling where more is known. *)
Lemma line_more : forall ext ext' l ws m ws1 m', sub ext ext' -> assemble_stmt takes_all ext l ws m = (ws1, Ok m') ->
  exists rs, ws1 = ws ++ rs /\ forall ws', assemble_stmt takes_all ext' l ws' m = (ws' ++ rs, Ok m').
Proof.
  intros ext ext' l ws m ws1 m' S H. pose proof (sub_module_ctx m (ln_scopes l) _ _ S) as SC. unfold assemble_stmt in *. cbv zeta in *.
  destruct (0 <? stmt_size (ln_stmt l)).
  - destruct (ln_value l) as [v|]; [|discriminate H]. destruct (label_to_address v) as [a|e|u|]; try discriminate H. cbn [wbind] in *.
    unfold stmt_assemble in *. destruct (stmt_bytes a (module_ctx m (ln_scopes l) ext) (ln_stmt l)) as [[b|]|e|u|] eqn:B; try discriminate H;
      rewrite (stmt_bytes_sub _ _ _ _ _ SC B); cbn [wbind sink_write takes_all] in *;
      (destruct (claim_bytes (md_owned m) a (stmt_size (ln_stmt l))) as [[[] owned]|e|u|]; try discriminate H); injection H as <- <-.
    + exists [(a, b)]. auto.
    + exists []. split; [symmetry; apply app_nil_r|]. intros. rewrite app_nil_r. reflexivity.
  - assert (P : forall (r : res module), (ws, r) = (ws1, Ok m') -> exists rs, ws1 = ws ++ rs /\ forall ws', (ws', r) = (ws' ++ rs, Ok m')).
    { intros r X. injection X as <- ->. exists []. split; [symmetry; apply app_nil_r|]. intros. rewrite app_nil_r. reflexivity. }
    destruct (ln_stmt l) as [i|d]; [apply P; exact H|]. destruct (d_name d); try (apply P; exact H).
    + destruct (ln_value l); apply P; exact H.
    + injection H as <- H. bok H as v E. rewrite (eval_opt_sub _ _ _ _ SC E). exists []. split; [symmetry; apply app_nil_r|]. intros. rewrite app_nil_r. f_equal. exact H.
Qed.
Lemma lines_more : forall ext ext' ls ws m ws1 m', sub ext ext' -> assemble_lines takes_all ext ls ws m = (ws1, Ok m') ->
  exists rs, ws1 = ws ++ rs /\ forall ws', assemble_lines takes_all ext' ls ws' m = (ws' ++ rs, Ok m').
Proof.
  intros ext ext'. induction ls as [|l ls IH]; intros ws m ws1 m' S H; cbn [assemble_lines] in *.
  - injection H as <- <-. exists []. split; [symmetry; apply app_nil_r|]. intros. rewrite app_nil_r. reflexivity.
  - apply wbind_ok in H. destruct H as (ws2 & m2 & A & H). apply wbind_ok in H. destruct H as (ws3 & m3 & B & H). injection B as <- B.
    destruct (line_more _ _ _ _ _ _ _ S A) as (rs & -> & R). destruct (IH _ _ _ _ S H) as (rs' & -> & R').
    exists (rs ++ rs'). split; [symmetry; apply app_assoc|]. intros ws'. rewrite R. cbn [wbind]. rewrite B. cbn [wbind]. rewrite R', app_assoc. reflexivity.
Qed.
Lemma module_more : forall ext ext' ws m ws1 m', sub ext ext' -> module_assemble takes_all ext ws m = (ws1, Ok m') ->
  exists rs, ws1 = ws ++ rs /\ forall ws', module_assemble takes_all ext' ws' m = (ws' ++ rs, Ok m').
Proof.
  intros ext ext' ws m ws1 m' S H. unfold module_assemble in *. apply wbind_ok in H. destruct H as (ws2 & m2 & A & H). injection H as <- H.
  destruct (lines_more _ _ _ _ _ _ _ S A) as (rs & -> & R). exists rs. split; [reflexivity|]. intros ws'. rewrite R. cbn [wbind]. rewrite H. reflexivity.
Qed.

(** ** Pairwise properties do not depend on the order. *)
Lemma pairs_perm : forall A (R : A -> A -> Prop) l l', (forall a b, R a b -> R b a) -> Permutation l l' -> ForallOrdPairs R l -> ForallOrdPairs R l'.
Proof.
  intros A R l l' S P. induction P as [|x l l' P IH|x y l|l l' l'' P IH P' IH']; intros F; [exact F| | |auto].
  - inversion F; subst. constructor; [|auto]. eapply Permutation_Forall; eassumption.
  - inversion F as [|? ? F1 F2]; subst. inversion F2 as [|? ? F3 F4]; subst. inversion F1; subst.
    constructor; [constructor; [apply S; assumption|assumption]|]. constructor; assumption.
Qed.
Definition apart (a b : list chunk) : Prop := forall x, covers a x -> ~ covers b x.
Lemma apart_sym : forall a b, apart a b -> apart b a.
Proof. intros a b H x X Y. exact (H x Y X). Qed.

(** ** Assembling all modules, one by one. *)
Lemma modules_each : forall order names ws ms rm ws' ms' rm' log, NoDup order -> holds rm log ->
  (forall i m, In i order -> znth ms i = Some m -> md_owned m = []) ->
  assemble_modules takes_all order names ws ms rm = (ws', Ok (ms', rm')) ->
  Forall2 same_code ms ms' /\ (forall i, ~ In i order -> znth ms' i = znth ms i) /\
  ForallOrdPairs (fun i j => apart (md_owned (at_ ms' i)) (md_owned (at_ ms' j))) order /\
  (forall i cs v, In i order -> In (cs, v) log -> apart (md_owned (at_ ms' i)) cs) /\
  holds rm' (rev (map (fun i => (md_owned (at_ ms' i), i)) order) ++ log) /\
  exists wss, ws' = ws ++ concat wss /\
    Forall2 (fun i rs => exists m m' msc, znth ms i = Some m /\ znth ms' i = Some m' /\ Forall2 same_code ms msc /\ canonical (md_owned m') /\
               module_assemble takes_all (assembler_ctx msc names) [] m = (rs, Ok m')) order wss.
Proof.
  induction order as [|i order IH]; intros names ws ms rm ws' ms' rm' log ND HO OW H; cbn [assemble_modules] in H.
  - injection H as <- <- <-. split; [apply Forall2_refl; apply same_code_refl|]. split; [reflexivity|]. split; [constructor|]. split; [intros i cs v []|]. split; [exact HO|].
    exists []. split; [symmetry; apply app_nil_r|constructor].
  - destruct (znth ms i) as [m|] eqn:M; [|discriminate H]. apply wbind_ok in H. destruct H as (ws1 & m1 & A & H).
    assert (O0 : md_owned m = []) by (eapply OW; [left; reflexivity|exact M]).
    destruct (module_assemble_spec _ _ _ _ _ _ ltac:(rewrite O0; exact Logic.I) A) as (rs & -> & _ & S & C1 & _ & _).
    assert (A0 : module_assemble takes_all (assembler_ctx ms names) [] m = (rs, Ok m1)).
    { destruct (module_more _ _ _ _ _ _ (sub_refl _) A) as (rs' & E & R). apply app_inv_head in E. subst rs'. apply R. }
    destruct (rm_insert rm (md_owned m1) i) as [ok rm1] eqn:RI. destruct ok; [|discriminate H].
    destruct (insert_exact _ _ _ _ _ _ _ HO C1 RI) as (DJ & HO1 & _). pose proof (proj1 DJ eq_refl) as DJ1. clear DJ.
    specialize (HO1 eq_refl). inversion ND as [|? ? NI ND']; subst.
    assert (OW' : forall j mj, In j order -> znth (zset i m1 ms) j = Some mj -> md_owned mj = []).
    { intros j mj J MJ. rewrite znth_zset_other in MJ by congruence. eapply OW; [right; exact J|exact MJ]. }
    destruct (IH _ _ _ _ _ _ _ _ ND' HO1 OW' H) as (SC & OT & PR & LG & HO' & wss & -> & F).
    pose proof (same_code_zset _ _ _ _ M S) as SC1.
    assert (MI : znth ms' i = Some m1) by (rewrite (OT i NI); apply znth_zset_same; eapply znth_some; exact M).
    assert (AI : at_ ms' i = m1) by (unfold at_; rewrite MI; reflexivity).
    split; [eapply Forall2_trans; [exact same_code_trans|exact SC1|exact SC]|]. split.
    { intros j J. cbn in J. rewrite OT by tauto. apply znth_zset_other. intros ->. apply J. left. reflexivity. }
    split.
    { constructor; [|exact PR]. apply Forall_forall. intros j J. rewrite AI. apply apart_sym. apply (LG j _ i J). left. reflexivity. }
    split.
    { intros j cs v [<-|J] L; [|apply (LG j cs v J); right; exact L]. rewrite AI. intros x. exact (DJ1 cs v x L). }
    split.
    { cbn [map rev]. rewrite AI, <- app_assoc. exact HO'. }
    exists (rs :: wss). split; [cbn [concat]; symmetry; apply app_assoc|]. constructor.
    + exists m, m1, ms. split; [exact M|]. split; [exact MI|]. split; [apply Forall2_refl; apply same_code_refl|]. auto.
    + clear -F NI SC1. induction F as [|j rs' order wss (mj & mj' & msc & X1 & X2 & X3 & X4) F IH]; constructor.
      * exists mj, mj', msc. rewrite znth_zset_other in X1 by (intros ->; apply NI; left; reflexivity). split; [exact X1|]. split; [exact X2|].
        split; [eapply Forall2_trans; [exact same_code_trans|exact SC1|exact X3]|exact X4].
      * apply IH. intros J. apply NI. right. exact J.
Qed.

(** ** What assembling makes of each module. *)
Record part := Part { p0 : module; p1 : module; p2 : module; p3 : module; pw : list write }.
Definition known (T : list part) (id : fullid) (v : Z) : Prop :=
  exists t, In t T /\ In id (exports (p0 t)) /\ value_for_name (p2 t) id = Ok v.
Definition good_part (fuel : nat) (T : list part) (t : part) : Prop :=
  run_first_pass fuel (p0 t) = Ok (p1 t) /\
  (forall ext, (forall cur id v, grows (p1 t) cur -> In id (md_deps (p0 t)) -> known T id v -> ext cur id = Ok v) -> run_second_pass ext (p1 t) = Ok (p2 t)) /\
  (forall ext ws, (forall id v, known T id v -> ext id = Ok v) -> module_assemble takes_all ext ws (p2 t) = (ws ++ pw t, Ok (p3 t))) /\
  same_code (p2 t) (p3 t) /\ canonical (md_owned (p3 t)) /\
  grows (p1 t) (p2 t) /\ (exists ext, module_assemble takes_all ext [] (p2 t) = (pw t, Ok (p3 t))).
Definition solved (fuel : nat) (T : list part) : Prop :=
  Forall (good_part fuel T) T /\ ForallOrdPairs (fun t u => apart (md_owned (p3 t)) (md_owned (p3 u))) T.
Lemma known_perm : forall T T' id v, Permutation T T' -> known T id v -> known T' id v.
Proof. intros T T' id v P (t & I & X). exists t. split; [eapply Permutation_in; eassumption|exact X]. Qed.
Lemma solved_perm : forall fuel T T', Permutation T T' -> solved fuel T -> solved fuel T'.
Proof.
  intros fuel T T' P [A B]. split.
  - apply Forall_forall. intros t I. rewrite Forall_forall in A. destruct (A t (Permutation_in _ (Permutation_sym P) I)) as (A1 & A2 & A3 & A4).
    split; [exact A1|]. split; [|split; [|exact A4]].
    + intros ext H. apply A2. intros cur id v G D K. apply H; [exact G|exact D|eapply known_perm; eassumption].
    + intros ext ws H. apply A3. intros id v K. apply H. eapply known_perm; eassumption.
  - eapply pairs_perm; [|exact P|exact B]. intros a b. apply apart_sym.
Qed.

(** ** From a run to its parts. *)
Lemma zip_fun : forall A (order : list Z) (wss : list A) d, NoDup order -> List.length order = List.length wss -> exists w, wss = map w order /\ forall j, ~ In j order -> w j = d.
Proof.
  intros A. induction order as [|i order IH]; intros [|x wss] d ND L; try discriminate L; [exists (fun _ => d); auto|].
  inversion ND as [|? ? NI ND']; subst. cbn in L. destruct (IH wss d ND') as (w & -> & O); [lia|].
  exists (fun j => if j =? i then x else w j). split.
  - cbn [map]. rewrite Z.eqb_refl. f_equal. apply map_ext_in. intros j J. destruct (Z.eqb_spec j i); [subst; contradiction|reflexivity].
  - intros j J. destruct (Z.eqb_spec j i) as [->|]; [exfalso; apply J; left; reflexivity|]. apply O. intros X. apply J. right. exact X.
Qed.
Lemma at_znth : forall ms i m, znth ms i = Some m -> at_ ms i = m.
Proof. intros ms i m H. unfold at_. rewrite H. reflexivity. Qed.
Lemma znth_at : forall ms i, 0 <= i < zlen ms -> znth ms i = Some (at_ ms i).
Proof. intros ms i H. destruct (znth_in_range _ ms i H) as [m M]. unfold at_. rewrite M. reflexivity. Qed.
Definition loaded (m : module) : Prop := md_deps m = compute_deps m /\ equs_ok m /\ md_owned m = [].
Lemma load_loaded : forall file m, load_asm_file file = Ok m -> loaded m.
Proof.
  intros file m H. split; [|split].
  - unfold load_asm_file in H. bok H as ld L. destruct (ld_scopes ld); [|discriminate H]. injection H as <-. reflexivity.
  - intros d I D. destruct (loaded_source _ _ H) as (src & (ess & F & ->) & E). rewrite E in I.
    assert (X : forall acc es, Forall entity_ok es -> In (SDir d) (map snd (statements acc es)) -> dir_ok d).
    { clear. intros acc es. revert acc. induction es as [|[n x|s] es IH]; intros acc F I; [destruct I| |]; inversion F; subst; cbn [statements] in I.
      - eapply IH; eassumption.
      - cbn in I. destruct I as [->|I]; [assumption|eapply IH; eassumption]. }
    assert (Y : dir_ok d).
    { eapply X; [|exact I]. clear -F. induction F as [|line es file ess H F IH]; [constructor|]. cbn. apply Forall_app. split; [|exact IH].
      apply (line_parsed line). exact H. }
    unfold dir_ok in Y. rewrite D in Y. cbn in Y. destruct Y as (e & A & OK & _). eauto.
  - eapply loaded_owned. exact H.
Qed.
Lemma first_deps : forall fuel m m', run_first_pass fuel m = Ok m' -> compute_deps m' = compute_deps m.
Proof.
  intros fuel m m' H. pose proof (first_pass_scopes _ _ _ H) as S. pose proof (first_pass_resolved _ _ _ H) as R. apply deps_same; [exact S|].
  destruct S as (_ & _ & S). revert S R. generalize (md_lines m) as ls, (md_lines m') as ls'. clear. induction ls as [|l ls IH]; intros [|l' ls'] S R; try discriminate S; [constructor|].
  cbn in S. injection S as S1 S2 S3. inversion R as [|? ? ? ? RR R']; subst. constructor; [|auto]. split; [exact S1|]. unfold resolved in RR. intros d.
  destruct (ln_stmt l) as [i|d']; [destruct RR as (_ & mm & _ & ->); split; discriminate|rewrite RR; reflexivity].
Qed.
Lemma first_equs : forall fuel m m', run_first_pass fuel m = Ok m' -> equs_ok m -> equs_ok m'.
Proof.
  intros fuel m m' H E d I D. apply E; [|exact D]. apply first_pass_resolved in H. clear E D. revert H I. generalize (map ln_stmt (md_lines m)) as ss, (md_lines m') as ls.
  intros ss ls H. induction H as [|s l ss ls R H IH]; intros I; [destruct I|]. cbn in I. destruct I as [I|I]; [|right; auto]. left. unfold resolved in R.
  destruct s as [i|d']; [destruct R as (_ & mm & _ & R)|]; congruence.
Qed.

Lemma run_parts : forall fuel ms ws a, Forall loaded ms -> assembler_assemble fuel takes_all (Assembler ms (RangeMap [] []) []) = (ws, Ok a) ->
  exists T, map p0 T = ms /\ map p3 T = as_mods a /\ solved fuel T /\ Permutation ws (flat_map pw T) /\
    (exists order names, find_assembly_order ms = Ok (order, names)) /\
    (forall x, covers (rm_used (as_map a)) x <-> exists t, In t T /\ covers (md_owned (p3 t)) x).
Proof.
  intros fuel ms ws a LD H. unfold assembler_assemble in H. cbn [as_mods as_map] in H.
  apply wbind_ok in H. destruct H as (ws0 & [order names] & FO & H). injection FO as <- FO.
  apply wbind_ok in H. destruct H as (ws1 & ms1 & F1 & H). injection F1 as <- F1.
  apply wbind_ok in H. destruct H as (ws2 & ms2 & F2 & H). injection F2 as <- F2.
  apply wbind_ok in H. destruct H as (ws3 & [ms3 rm] & F3 & H). injection H as <- <-. cbn [as_mods as_map].
  destruct (order_all _ _ _ FO) as [ND AL]. pose proof (order_ends ms) as OE. rewrite FO in OE. destruct OE as [(_ & _ & NM & NDN & RS) _].
  pose proof (first_passes_all _ _ _ _ _ FO F1) as A1. pose proof (first_passes_zlen _ _ _ _ F1) as L1.
  destruct (second_each _ _ _ _ ND F2) as (G2 & _ & S2). pose proof (Forall2_zlen _ _ _ _ _ G2) as L2.
  assert (OW : forall i m, In i order -> znth ms2 i = Some m -> md_owned m = []).
  { intros i m I M. destruct (S2 i I) as (m1 & m2 & msc & X1 & X2 & X3 & _). rewrite M in X2. injection X2 as <-.
    destruct (Forall2_znth _ _ _ _ _ G2 _ _ X1) as (y & Y & G). rewrite M in Y. injection Y as <-. destruct G as (_ & _ & _ & G & _). rewrite G.
    assert (RI : 0 <= i < zlen ms) by (apply AL; exact I). pose proof (znth_at ms i RI) as Z0. destruct (Forall2_znth _ _ _ _ _ A1 _ _ Z0) as (z & Z1 & R1).
    rewrite X1 in Z1. injection Z1 as <-. rewrite (first_pass_owned _ _ _ R1). rewrite Forall_forall in LD. apply LD, at_in. exact RI. }
  assert (HE : @holds Z (RangeMap [] []) []).
  { split; [exact Logic.I|]. split; [exact Logic.I|]. split.
    - intros x. split; [intros C; apply covers_nil in C; contradiction|intros (cs & v & [] & _)].
    - intros c v. split; [intros []|intros (cs & [] & _)]. }
  destruct (modules_each _ _ _ _ _ _ _ _ _ ND HE OW F3) as (SC & _ & PR & _ & HO & wss & EW & F4). pose proof (Forall2_zlen _ _ _ _ _ SC) as L3.
  cbn [app] in EW. subst ws3.
  destruct (zip_fun _ order wss [] ND (Forall2_same_length _ _ _ _ _ F4)) as (w & -> & _).
  set (T := map (fun i => Part (at_ ms i) (at_ ms1 i) (at_ ms2 i) (at_ ms3 i) (w i)) (indices ms)).
  assert (IT : forall t, In t T <-> exists i, In i order /\ t = Part (at_ ms i) (at_ ms1 i) (at_ ms2 i) (at_ ms3 i) (w i)).
  { intros t. unfold T. rewrite in_map_iff. split; intros (i & A & B); exists i; [rewrite indices_in in B; rewrite AL; auto|rewrite indices_in, <- AL; auto]. }
  assert (KN : forall msc id v, Forall2 (fun m m' => forall v, value_for_name m id = Ok v -> value_for_name m' id = Ok v) msc ms2 -> assembler_ctx msc names id = Ok v -> known T id v).
  { intros msc id v F X. unfold assembler_ctx in X. destruct (negb (fi_qualified id)); [discriminate X|]. destruct (assoc_id id names) as [j|] eqn:AJ; [|discriminate X].
    destruct (znth msc j) as [mj|] eqn:MJ; [|discriminate X]. destruct (Forall2_znth _ _ _ _ _ F _ _ MJ) as (m2 & M2 & V2).
    apply assoc_id_in in AJ. rewrite NM in AJ. apply in_flat_map in AJ. destruct AJ as (j' & J & AJ). apply in_map_iff in AJ. destruct AJ as (id' & E & AJ). injection E as -> ->.
    eexists. split; [apply IT; exists j; split; [exact J|reflexivity]|]. cbn [p0 p2]. split; [exact AJ|]. rewrite (at_znth _ _ _ M2). auto. }
  exists T. split; [|split; [|split; [|split; [|split]]]].
  - unfold T. rewrite map_map. cbn [p0]. apply indices_all.
  - unfold T. rewrite map_map. cbn [p3]. replace (indices ms) with (indices ms3); [apply indices_all|]. unfold indices. do 2 f_equal. unfold zlen in *. lia.
  - split.
    + apply Forall_forall. intros t I. apply IT in I. destruct I as (i & I & ->). cbn [p0 p1 p2 p3 pw].
      assert (RI : 0 <= i < zlen ms) by (apply AL; exact I). pose proof (znth_at ms i RI) as Z0. destruct (Forall2_znth _ _ _ _ _ A1 _ _ Z0) as (m1 & Z1 & R1).
      destruct (S2 i I) as (m1' & m2 & msc & X1 & X2 & X3 & X4 & R2). rewrite Z1 in X1. injection X1 as <-.
      assert (LDI : loaded (at_ ms i)) by (rewrite Forall_forall in LD; apply LD, at_in; exact RI). destruct LDI as (LD1 & LD2 & LD3).
      unfold good_part. cbn [p0 p1 p2 p3 pw]. rewrite (at_znth _ _ _ Z1), (at_znth _ _ _ X2). split; [exact R1|].
      assert (GM : forall A B (P : A -> B -> Prop) l l' i x y, Forall2 P l l' -> znth l i = Some x -> znth l' i = Some y -> P x y).
      { clear. intros A B P l l' i x y F X Y. destruct (Forall2_znth _ _ _ _ _ F _ _ X) as (z & Z & PZ). congruence. }
      split; [|split].
      * intros ext HX. unfold run_second_pass in *.
        apply (second_transfer (List.length (md_lines m1)) 0 (fun cur => assembler_ctx (zset i cur msc) names) ext m1 m2); [eapply first_equs; eassumption| |intros p q G; apply grows_assembler; apply Forall2_zset; [apply Forall2_refl; apply grows_refl|exact G]|lia|exact R2].
        intros cur id v GA GB D X. apply HX; [exact GA|rewrite LD1, <- (first_deps _ _ _ R1); exact D|]. eapply KN; [|exact X].
        apply znth_Forall2; [rewrite zlen_zset; eapply Forall2_zlen; exact X3|]. intros j x XJ. destruct (Z.eq_dec j i) as [->|NE].
        -- rewrite znth_zset_same in XJ by (eapply znth_some; exact X4). injection XJ as <-. exists m2. split; [exact X2|]. intros u. apply grows_value_for_name. exact GB.
        -- rewrite znth_zset_other in XJ by congruence. destruct (Forall2_znth _ _ _ _ _ X3 _ _ XJ) as (y & Y & G). exists y. split; [exact Y|]. intros u. apply grows_value_for_name. exact G.
      * assert (FI : exists m m' msc, znth ms2 i = Some m /\ znth ms3 i = Some m' /\ Forall2 same_code ms2 msc /\ canonical (md_owned m') /\ module_assemble takes_all (assembler_ctx msc names) [] m = (w i, Ok m')).
        { clear -F4 I. induction order as [|j order IH]; [destruct I|]. inversion F4; subst. destruct I as [->|I]; [assumption|apply IH; assumption]. }
        destruct FI as (m2' & m3 & msc' & Y1 & Y2 & Y3 & Y4 & R3). rewrite X2 in Y1. injection Y1 as <-. rewrite (at_znth _ _ _ Y2).
        intros ext ws' HX. assert (SB : sub (assembler_ctx msc' names) ext).
        { intros id v X. apply HX. eapply KN; [|exact X]. clear -Y3. induction Y3; constructor; [|assumption]. intros v. rewrite (same_code_value _ _ _ H). exact (fun z => z). }
        destruct (module_more _ _ _ _ _ _ SB R3) as (rs & E & R). cbn in E. subst rs. apply R.
      * assert (FI : exists m', znth ms3 i = Some m' /\ canonical (md_owned m') /\ exists m ext, znth ms2 i = Some m /\ module_assemble takes_all ext [] m = (w i, Ok m')).
        { clear -F4 I. induction order as [|j order IH]; [destruct I|]. inversion F4 as [|? ? ? ? X F]; subst. destruct I as [->|I]; [destruct X as (m & m' & ? & X0 & X1 & _ & X2 & X3); eauto 10|apply IH; assumption]. }
        destruct FI as (m3 & Y2 & Y4 & m2' & ext & Y5 & Y6). rewrite (at_znth _ _ _ Y2). split; [eapply GM; [exact SC|exact X2|exact Y2]|]. split; [exact Y4|].
        rewrite X2 in Y5. injection Y5 as <-. split; [eapply GM; [exact G2|exact Z1|exact X2]|exists ext; exact Y6].
    + eapply pairs_perm; [intros x y; apply apart_sym| |].
      * unfold T. apply Permutation_map. apply (NoDup_Permutation ND (indices_nodup ms)). intros i. rewrite indices_in. apply AL.
      * clear -PR. induction PR as [|i order F PR IH]; [constructor|]. cbn [map]. constructor; [|exact IH]. clear -F.
        induction F; constructor; assumption.
  - unfold T. rewrite flat_map_concat_map, map_map. cbn [pw]. rewrite <- !flat_map_concat_map. apply flat_map_perm. apply (NoDup_Permutation ND (indices_nodup ms)). intros i. rewrite indices_in. apply AL.
  - eauto.
  - intros x. destruct HO as (_ & _ & HO & _). rewrite HO. rewrite app_nil_r. split.
    + intros (cs & v & I & C). apply in_rev, in_map_iff in I. destruct I as (i & E & I). injection E as <- <-. eexists. split; [apply IT; exists i; split; [exact I|reflexivity]|exact C].
    + intros (t & I & C). apply IT in I. destruct I as (i & I & ->). exists (md_owned (at_ ms3 i)), i. split; [|exact C]. apply in_rev. rewrite rev_involutive. apply in_map_iff. eauto.
Qed.

(** ** From parts to a run. *)
Lemma znth_same : forall A (l l' : list A), (forall i, znth l i = znth l' i) -> l = l'.
Proof. intros A l l' H. apply znth_ext. exact H. Qed.
Lemma first_run : forall fuel B order ms, NoDup order ->
  (forall i, In i order -> exists m m', znth ms i = Some m /\ znth B i = Some m' /\ run_first_pass fuel m = Ok m') ->
  (forall i, ~ In i order -> znth ms i = znth B i) -> first_passes fuel order ms = Ok B.
Proof.
  intros fuel B. induction order as [|i order IH]; intros ms ND H O; cbn [first_passes].
  - f_equal. apply znth_same. intros i. apply O. intros [].
  - inversion ND as [|? ? NI ND']; subst. destruct (H i (or_introl eq_refl)) as (m & m' & M & MB & R). rewrite M, R. cbn [bind]. apply IH; [exact ND'| |].
    + intros j J. rewrite znth_zset_other by congruence. apply H. right. exact J.
    + intros j J. destruct (Z.eq_dec j i) as [->|NE]; [rewrite znth_zset_same by (eapply znth_some; exact M); symmetry; exact MB|].
      rewrite znth_zset_other by congruence. apply O. intros [E|E]; [congruence|contradiction].
Qed.
Lemma znth_part : forall T (f : part -> module) i, znth (map f T) i = option_map f (znth T i).
Proof. intros T f i. rewrite znth_map. reflexivity. Qed.
Lemma export_qualified : forall m id, In id (exports m) -> fi_qualified id = true.
Proof. intros m id I. unfold exports in I. apply in_map_iff in I. destruct I as (g & <- & _). reflexivity. Qed.
Lemma names_known : forall T order names id v ms, ord_ok (map p0 T) order names ->
  (forall i, In i order <-> 0 <= i < zlen (map p0 T)) -> known T id v ->
  (forall i t, znth T i = Some t -> In id (exports (p0 t)) -> exists m, znth ms i = Some m /\ (value_for_name (p2 t) id = Ok v -> value_for_name m id = Ok v)) ->
  assembler_ctx ms names id = Ok v.
Proof.
  intros T order names id v ms (_ & _ & NM & ND & _) AL (t & I & X & V) H. unfold assembler_ctx. rewrite (export_qualified _ _ X). cbn [negb].
  apply in_znth in I. destruct I as [i I].
  assert (RI : 0 <= i < zlen (map p0 T)) by (rewrite zlen_map; eapply znth_some; exact I).
  rewrite (assoc_id_nodup _ names id i ND).
  - destruct (H i t I X) as (m & M & VM). rewrite M. auto.
  - rewrite NM. apply in_flat_map. exists i. split; [apply AL; exact RI|]. apply in_map_iff. exists id. split; [reflexivity|].
    unfold at_. rewrite znth_part, I. exact X.
Qed.
Lemma unique_owner : forall order ms i j id, NoDup (map fst (names_of ms order)) -> In i order -> In j order -> In id (exports (at_ ms i)) -> In id (exports (at_ ms j)) -> i = j.
Proof.
  intros order ms i j id ND I J X Y.
  assert (A : forall k, In k order -> In id (exports (at_ ms k)) -> assoc_id id (names_of ms order) = Some k).
  { intros k K Z. apply assoc_id_nodup; [exact ND|]. apply in_flat_map. exists k. split; [exact K|]. apply in_map_iff. eauto. }
  rewrite (A i I X) in A. specialize (A j J Y). congruence.
Qed.
Lemma second_run : forall fuel T order names, ord_ok (map p0 T) order names -> (forall i, In i order <-> 0 <= i < zlen (map p0 T)) ->
  Forall (good_part fuel T) T ->
  forall suf pre ms, order = pre ++ suf -> (forall i, In i suf -> znth ms i = znth (map p1 T) i) -> (forall i, ~ In i suf -> znth ms i = znth (map p2 T) i) ->
  second_passes suf names ms = Ok (map p2 T).
Proof.
  intros fuel T order names OK AL GP. induction suf as [|i suf IH]; intros pre ms E A B; cbn [second_passes].
  - f_equal. apply znth_same. intros i. apply B. intros [].
  - assert (IO : In i order) by (rewrite E; apply in_or_app; right; left; reflexivity).
    assert (RI : 0 <= i < zlen T) by (rewrite <- (zlen_map _ _ p0 T); apply AL; exact IO).
    destruct (znth_in_range _ T i RI) as [t ZT].
    assert (GT : good_part fuel T t) by (rewrite Forall_forall in GP; apply GP; eapply znth_in; exact ZT).
    destruct GT as (_ & G2 & _).
    rewrite (A i (or_introl eq_refl)), znth_part, ZT. cbn [option_map].
    assert (NDO : NoDup order) by (apply OK).
    assert (NI : ~ In i suf) by (rewrite E in NDO; apply NoDup_remove_2 in NDO; intros I; apply NDO; apply in_or_app; right; exact I).
    rewrite G2.
    + cbn [bind]. apply (IH (pre ++ [i])); [rewrite <- app_assoc; exact E| |].
      * intros j J. rewrite znth_zset_other by congruence. apply A. right. exact J.
      * intros j J. destruct (Z.eq_dec j i) as [->|NE].
        -- rewrite znth_zset_same; [rewrite znth_part, ZT; reflexivity|]. apply znth_some with (x := p1 t). rewrite (A i (or_introl eq_refl)), znth_part, ZT. reflexivity.
        -- rewrite znth_zset_other by congruence. apply B. intros [X|X]; [congruence|contradiction].
    + intros cur id v G D K. eapply names_known; [exact OK|exact AL|exact K|]. intros j u J X.
      destruct OK as (_ & _ & NM & ND & RS).
      assert (AT : at_ (map p0 T) i = p0 t) by (unfold at_; rewrite znth_part, ZT; reflexivity).
      assert (AJ : at_ (map p0 T) j = p0 u) by (unfold at_; rewrite znth_part, J; reflexivity).
      assert (JO : In j order) by (apply AL; rewrite zlen_map; eapply znth_some; exact J).
      destruct (RS (map (at_ (map p0 T)) pre) (at_ (map p0 T) i) (map (at_ (map p0 T)) suf)) with (id := id) as (m' & I' & X'); [rewrite E, map_app; reflexivity|rewrite AT; exact D|].
      apply in_map_iff in I'. destruct I' as (k & <- & KP).
      assert (k = j) as ->.
      { eapply unique_owner; [rewrite NM in ND; exact ND|rewrite E; apply in_or_app; left; exact KP|exact JO|exact X'|rewrite AJ; exact X]. }
      assert (NJ : ~ In j (i :: suf)).
      { intros Y. rewrite E in NDO. clear -NDO KP Y. induction pre as [|x pre IH]; [destruct KP|]. cbn in NDO. inversion NDO; subst. destruct KP as [->|KP]; [|auto].
        apply H1. apply in_or_app. right. exact Y. }
      exists (p2 u). rewrite znth_zset_other by (intros ->; apply NJ; left; reflexivity). rewrite (B j NJ), znth_part, J. split; [reflexivity|exact (fun z => z)].
Qed.
Lemma value_same : forall t id v, same_code (p2 t) (p3 t) -> value_for_name (p2 t) id = Ok v -> value_for_name (p3 t) id = Ok v.
Proof. intros t id v S H. rewrite (same_code_value _ _ _ S). exact H. Qed.
Definition dpart : part := Part empty_module empty_module empty_module empty_module [].
Definition part_at (T : list part) (i : Z) : part := match znth T i with Some t => t | None => dpart end.
Lemma modules_run : forall fuel T order names, ord_ok (map p0 T) order names -> (forall i, In i order <-> 0 <= i < zlen (map p0 T)) ->
  Forall (good_part fuel T) T -> (forall i j, In i order -> In j order -> i <> j -> apart (md_owned (p3 (part_at T i))) (md_owned (p3 (part_at T j)))) ->
  forall suf pre ms rm ws, order = pre ++ suf -> (forall i, In i suf -> znth ms i = znth (map p2 T) i) -> (forall i, ~ In i suf -> znth ms i = znth (map p3 T) i) ->
  holds rm (rev (map (fun i => (md_owned (p3 (part_at T i)), i)) pre)) ->
  exists rm', assemble_modules takes_all suf names ws ms rm = (ws ++ flat_map (fun i => pw (part_at T i)) suf, Ok (map p3 T, rm')) /\
    holds rm' (rev (map (fun i => (md_owned (p3 (part_at T i)), i)) order)).
Proof.
  intros fuel T order names OK AL GP AP. induction suf as [|i suf IH]; intros pre ms rm ws E A B HO; cbn [assemble_modules].
  - rewrite app_nil_r in E. subst pre. exists rm. cbn [flat_map]. rewrite app_nil_r. split; [|exact HO]. do 3 f_equal. apply znth_same. intros i. apply B. intros [].
  - assert (IO : In i order) by (rewrite E; apply in_or_app; right; left; reflexivity).
    assert (RI : 0 <= i < zlen T) by (rewrite <- (zlen_map _ _ p0 T); apply AL; exact IO).
    destruct (znth_in_range _ T i RI) as [t ZT].
    assert (PT : part_at T i = t) by (unfold part_at; rewrite ZT; reflexivity).
    assert (GT : good_part fuel T t) by (rewrite Forall_forall in GP; apply GP; eapply znth_in; exact ZT).
    destruct GT as (_ & _ & G3 & SC & CN & _).
    rewrite (A i (or_introl eq_refl)), znth_part, ZT. cbn [option_map].
    assert (NDO : NoDup order) by (apply OK).
    assert (NI : ~ In i suf) by (rewrite E in NDO; apply NoDup_remove_2 in NDO; intros I; apply NDO; apply in_or_app; right; exact I).
    assert (NP : ~ In i pre) by (rewrite E in NDO; apply NoDup_remove_2 in NDO; intros I; apply NDO; apply in_or_app; left; exact I).
    rewrite G3.
    + cbn [wbind]. destruct (rm_insert rm (md_owned (p3 t)) i) as [ok rm1] eqn:RI'. destruct (insert_exact _ _ _ _ _ _ _ HO CN RI') as (DJ & HO1 & _).
      assert (ok = true) as ->.
      { apply DJ. intros cs w x I C C'. apply in_rev, in_map_iff in I. destruct I as (j & X & J). injection X as <- <-.
        assert (NE : i <> j) by (intros ->; contradiction). refine (AP i j IO _ NE x _ C'); [rewrite E; apply in_or_app; left; exact J|rewrite PT; exact C]. }
      destruct (IH (pre ++ [i]) (zset i (p3 t) ms) rm1 (ws ++ pw t)) as (rm' & R & HO').
      * rewrite <- app_assoc. exact E.
      * intros j J. rewrite znth_zset_other by congruence. apply A. right. exact J.
      * intros j J. destruct (Z.eq_dec j i) as [->|NE].
        -- rewrite znth_zset_same; [rewrite znth_part, ZT; reflexivity|]. apply znth_some with (x := p2 t). rewrite (A i (or_introl eq_refl)), znth_part, ZT. reflexivity.
        -- rewrite znth_zset_other by congruence. apply B. intros [X|X]; [congruence|contradiction].
      * rewrite map_app, rev_app_distr. cbn [map rev app]. rewrite PT. apply HO1. reflexivity.
      * exists rm'. split; [|exact HO']. cbn [flat_map]. rewrite PT. rewrite R, app_assoc. reflexivity.
    + intros id v K. eapply names_known; [exact OK|exact AL|exact K|]. intros j u J X.
      destruct (in_dec Z.eq_dec j (i :: suf)) as [I|I].
      * exists (p2 u). rewrite (A j I), znth_part, J. split; [reflexivity|exact (fun z => z)].
      * exists (p3 u). rewrite (B j I), znth_part, J. split; [reflexivity|]. apply value_same.
        rewrite Forall_forall in GP. apply (GP u). eapply znth_in; exact J.
Qed.
Lemma pairs_at : forall A (R : A -> A -> Prop) (d : A) l i j, (forall a b, R a b -> R b a) -> ForallOrdPairs R l -> 0 <= i < zlen l -> 0 <= j < zlen l -> i <> j ->
  forall x y, znth l i = Some x -> znth l j = Some y -> R x y.
Proof.
  intros A R d l i j S F. revert i j. induction F as [|a l F1 F IH]; intros i j RI RJ NE x y X Y; [rewrite zlen_nil in RI; lia|].
  rewrite zlen_cons in *. rewrite Forall_forall in F1. destruct (Z.eq_dec i 0) as [->|NI]; [|destruct (Z.eq_dec j 0) as [->|NJ]].
  - cbn in X. injection X as <-. rewrite znth_cons in Y by lia. apply F1. eapply znth_in. exact Y.
  - cbn in Y. injection Y as <-. rewrite znth_cons in X by lia. apply S, F1. eapply znth_in. exact X.
  - rewrite znth_cons in X, Y by lia. apply (IH (i - 1) (j - 1)); [lia..|exact X|exact Y].
Qed.
Lemma parts_run : forall fuel T, solved fuel T -> (exists order names, find_assembly_order (map p0 T) = Ok (order, names)) ->
  exists ws a, assembler_assemble fuel takes_all (Assembler (map p0 T) (RangeMap [] []) []) = (ws, Ok a) /\ as_mods a = map p3 T /\ Permutation ws (flat_map pw T) /\
    (forall x, covers (rm_used (as_map a)) x <-> exists t, In t T /\ covers (md_owned (p3 t)) x) /\ canonical (rm_used (as_map a)).
Proof.
  intros fuel T [GP PR] (order & names & FO). destruct (order_all _ _ _ FO) as [ND AL]. pose proof (order_ends (map p0 T)) as OE. rewrite FO in OE. destruct OE as [OK _].
  unfold assembler_assemble. cbn [as_mods as_map]. rewrite FO. cbn [wbind].
  rewrite (first_run fuel (map p1 T) order (map p0 T) ND).
  2:{ intros i I. assert (RI : 0 <= i < zlen T) by (rewrite <- (zlen_map _ _ p0 T); apply AL; exact I). destruct (znth_in_range _ T i RI) as [t ZT].
      exists (p0 t), (p1 t). rewrite !znth_part, ZT. split; [reflexivity|]. split; [reflexivity|]. rewrite Forall_forall in GP. apply (GP t). eapply znth_in. exact ZT. }
  2:{ intros i NI. rewrite !znth_part. destruct (znth T i) as [t|] eqn:ZT; [|reflexivity]. exfalso. apply NI, AL. rewrite zlen_map. eapply znth_some. exact ZT. }
  cbn [wbind]. assert (OUT : forall (f g : part -> module) i, ~ In i order -> znth (map f T) i = znth (map g T) i).
  { intros f g i NI. rewrite !znth_part. destruct (znth T i) as [t|] eqn:ZT; [|reflexivity]. exfalso. apply NI, AL. rewrite zlen_map. eapply znth_some. exact ZT. }
  rewrite (second_run fuel T order names OK AL GP order [] (map p1 T) eq_refl (fun i _ => eq_refl) (OUT _ _)). cbn [wbind].
  assert (HE : @holds Z (RangeMap [] []) []).
  { split; [exact Logic.I|]. split; [exact Logic.I|]. split.
    - intros x. split; [intros C; apply covers_nil in C; contradiction|intros (cs & v & [] & _)].
    - intros c v. split; [intros []|intros (cs & [] & _)]. }
  destruct (modules_run fuel T order names OK AL GP) with (suf := order) (pre := @nil Z) (ms := map p2 T) (rm := @RangeMap Z [] []) (ws := @nil write) as (rm' & R & HO); [|reflexivity|reflexivity|apply OUT|exact HE|].
  { intros i j I J NE. apply AL in I, J. rewrite zlen_map in I, J. destruct (znth_in_range _ T i I) as [t ZT]. destruct (znth_in_range _ T j J) as [u ZU].
    unfold part_at. rewrite ZT, ZU. apply (pairs_at _ (fun t u => apart (md_owned (p3 t)) (md_owned (p3 u))) dpart T i j); auto. intros a b. apply apart_sym. }
  rewrite R. cbn [wbind app]. eexists _, _. split; [reflexivity|]. cbn [as_mods as_map]. split; [reflexivity|].
  assert (PO : Permutation order (map Z.of_nat (seq 0 (List.length T)))).
  { apply NoDup_Permutation; [exact ND|apply FinFun.Injective_map_NoDup; [intros x y; lia|apply seq_NoDup]|]. intros i. rewrite AL, zlen_map, in_map_iff. split.
    - intros H. exists (Z.to_nat i). rewrite in_seq. unfold zlen in H. lia.
    - intros (n & <- & H). apply in_seq in H. unfold zlen. lia. }
  assert (ALLT : map (part_at T) (map Z.of_nat (seq 0 (List.length T))) = T).
  { apply znth_ext. intros i. rewrite !znth_map. destruct (znth T i) as [t|] eqn:ZT.
    - pose proof (znth_some _ _ _ _ ZT) as RI. assert (S : znth (seq 0 (List.length T)) i = Some (Z.to_nat i)).
      { unfold znth. destruct (Z.ltb_spec i 0); [lia|]. unfold zlen in RI. rewrite (nth_error_nth' _ 0%nat) by (rewrite seq_length; lia). rewrite seq_nth by lia. reflexivity. }
      rewrite S. cbn. unfold part_at. rewrite Z2Nat.id by lia. rewrite ZT. reflexivity.
    - assert (S : znth (seq 0 (List.length T)) i = None) by (apply znth_none; apply znth_none in ZT; unfold zlen in *; rewrite seq_length; exact ZT). rewrite S. reflexivity. }
  split; [|split].
  - assert (X : flat_map pw T = flat_map (fun i => pw (part_at T i)) (map Z.of_nat (seq 0 (List.length T)))).
    { rewrite !flat_map_concat_map. rewrite <- ALLT at 1. rewrite map_map. reflexivity. }
    rewrite X. apply flat_map_perm. exact PO.
  - intros x. destruct HO as (_ & _ & HO & _). rewrite HO. split.
    + intros (cs & v & I & C). apply in_rev, in_map_iff in I. destruct I as (i & E & I). injection E as <- <-. exists (part_at T i). split; [|exact C].
      apply AL in I. rewrite zlen_map in I. destruct (znth_in_range _ T i I) as [t ZT]. unfold part_at. rewrite ZT. eapply znth_in. exact ZT.
    + intros (t & I & C). apply in_znth in I. destruct I as [i ZT]. exists (md_owned (p3 t)), i. split; [|exact C]. apply in_rev. rewrite rev_involutive. apply in_map_iff. exists i.
      unfold part_at. rewrite ZT. split; [reflexivity|]. apply AL. rewrite zlen_map. eapply znth_some. exact ZT.
  - apply HO.
Qed.

(** ** Files in another order. *)
Lemma files_modules : forall files, forall a ms, Forall2 (fun f m => load_asm_file f = Ok m) files ms ->
  add_files a files = Ok (Assembler (as_mods a ++ ms) (as_map a) (as_names a)).
Proof.
  intros files a ms F. revert a. induction F as [|f m files ms L F IH]; intros a; cbn [add_files].
  - rewrite app_nil_r. destruct a. reflexivity.
  - unfold add_asm_file. rewrite L. cbn [bind]. rewrite IH. cbn [as_mods as_map as_names]. rewrite <- app_assoc. reflexivity.
Qed.
Lemma Forall2_perm : forall A B (P : A -> B -> Prop) l l' r, Permutation l l' -> Forall2 P l r -> exists r', Forall2 P l' r' /\ Permutation r r'.
Proof.
  intros A B P l l' r PM. revert r. induction PM as [|x l l' PM IH|x y l|l l' l'' P1 IH1 P2 IH2]; intros r F.
  - inversion F; subst. exists []. auto.
  - inversion F as [|? b ? r0 PX F0]; subst. destruct (IH _ F0) as (r' & F' & P'). exists (b :: r'). split; [constructor; assumption|constructor; exact P'].
  - inversion F as [|? b ? r0 PX F0]; subst. inversion F0 as [|? c ? r1 PY F1]; subst. exists (c :: b :: r1). split; [constructor; [assumption|constructor; assumption]|apply perm_swap].
  - destruct (IH1 _ F) as (r' & F' & P'). destruct (IH2 _ F') as (r'' & F'' & P''). exists r''. split; [exact F''|eapply Permutation_trans; eassumption].
Qed.
Lemma order_free : forall fuel files files' ws a, Permutation files files' -> assemble fuel takes_all files = (ws, Ok a) ->
  exists ws' a', assemble fuel takes_all files' = (ws', Ok a') /\ Permutation ws ws' /\ Permutation (as_mods a) (as_mods a') /\
    (forall x, assembler_contains a' x = assembler_contains a x) /\
    exists T T', Permutation T T' /\ solved fuel T /\ Forall (fun t => exists file, In file files /\ load_asm_file file = Ok (p0 t)) T /\ as_mods a = map p3 T /\ as_mods a' = map p3 T'.
Proof.
  intros fuel files files' ws a P H. unfold assemble in *. apply wbind_ok in H. destruct H as (ws0 & a0 & A & H). injection A as <- A.
  destruct (add_files_spec _ _ _ A) as (ms & F & M & R). rewrite (files_modules _ _ _ F) in A. injection A as <-. cbn [as_mods as_map as_names empty_assembler app] in *.
  assert (LD : Forall loaded ms).
  { clear -F. induction F; constructor; [eapply load_loaded; eassumption|assumption]. }
  pose proof H as H0. destruct (run_parts _ _ _ _ LD H) as (T & E0 & E3 & SV & PW & FO & CV).
  destruct (Forall2_perm _ _ _ _ _ _ P F) as (ms' & F' & PM).
  rewrite <- E0 in PM. destruct (Permutation_map_inv _ _ (Permutation_sym PM)) as (T' & E' & PT).
  assert (FO' : exists order names, find_assembly_order (map p0 T') = Ok (order, names)).
  { apply (order_permutation (map p0 T) (map p0 T')); [apply Permutation_map; exact PT|rewrite E0; exact FO]. }
  destruct (parts_run fuel T' (solved_perm _ _ _ PT SV) FO') as (ws' & a' & R' & M' & W' & C' & K').
  exists ws', a'. rewrite (files_modules _ _ _ F'). cbn [as_mods as_map as_names empty_assembler app wbind]. rewrite E'. split; [exact R'|].
  split; [eapply Permutation_trans; [exact PW|]; eapply Permutation_trans; [apply flat_map_perm; exact PT|apply Permutation_sym; exact W']|].
  split; [rewrite <- E3, M'; apply Permutation_map; exact PT|].
  assert (KA : canonical (rm_used (as_map a))).
  { unfold assembler_assemble in H0. cbn [as_mods as_map] in H0. destruct (parts_run fuel T SV) as (w1 & a1 & R1 & _ & _ & _ & K1); [rewrite E0; exact FO|].
    rewrite E0 in R1. unfold assembler_assemble in R1. cbn [as_mods as_map] in R1. rewrite H0 in R1. injection R1 as _ ->. exact K1. }
  split.
  - intros x. apply eq_true_iff_eq. unfold assembler_contains, rm_contains. rewrite !contains_exact by assumption. rewrite C', CV. split.
    + intros (t & I & C). exists t. split; [eapply Permutation_in; [apply Permutation_sym; exact PT|exact I]|exact C].
    + intros (t & I & C). exists t. split; [eapply Permutation_in; [exact PT|exact I]|exact C].
  - exists T, T'. split; [exact PT|]. split; [exact SV|]. split; [|auto]. clear -F E0. apply Forall_forall. intros t I. apply (in_map p0) in I. rewrite E0 in I. clear E0.
    induction F as [|f m files ms L F IH]; [destruct I|]. destruct I as [<-|I]; [exists f; split; [left; reflexivity|exact L]|]. destruct (IH I) as (g & G & X). exists g. split; [right; exact G|exact X].
Qed.
(** For sinks that judge each write by itself. *)
Definition judges (sk : sink) : Prop := forall ws ws' w, sk ws w = sk ws' w.
Lemma offer_judged : forall sk todo ws ws' u, judges sk -> offer sk ws todo = (ws', Ok u) <-> ws' = ws ++ todo /\ u = tt /\ Forall (fun w => sk [] w = Ok tt) todo.
Proof.
  intros sk todo ws ws' u J. revert ws. induction todo as [|w todo IH]; intros ws; cbn [offer].
  - rewrite app_nil_r. split; [intros X; injection X as <- <-; auto|intros (-> & -> & _); reflexivity].
  - rewrite (J ws [] w). destruct (sk [] w) as [[]|e|v|] eqn:E.
    + rewrite IH. rewrite <- app_assoc. cbn [app]. split; intros (A & B & C); (split; [exact A|]); (split; [exact B|]); [constructor; assumption|inversion C; assumption].
    + split; [discriminate|intros (_ & _ & C); inversion C; congruence].
    + split; [discriminate|intros (_ & _ & C); inversion C; congruence].
    + split; [discriminate|intros (_ & _ & C); inversion C; congruence].
Qed.
Lemma judged_run : forall fuel sk files ws a, judges sk -> assemble fuel sk files = (ws, Ok a) <-> assemble fuel takes_all files = (ws, Ok a) /\ Forall (fun w => sk [] w = Ok tt) ws.
Proof.
  intros fuel sk files ws a J. destruct (assemble fuel takes_all files) as [ws0 r] eqn:E. rewrite (sink_only_ends _ sk _ _ _ E). split.
  - intros H. destruct (offer sk [] ws0) as [ws1 [u|e|v|]] eqn:O; try discriminate H. cbn in H. injection H as <- ->. apply (offer_judged _ _ _ _ _ J) in O. destruct O as (-> & _ & F). auto.
  - intros [H F]. injection H as -> ->. rewrite (proj2 (offer_judged sk ws [] ws tt J)); auto.
Qed.
Lemma order_free_judged : forall fuel sk files files' ws a, judges sk -> Permutation files files' -> assemble fuel sk files = (ws, Ok a) ->
  exists ws' a', assemble fuel sk files' = (ws', Ok a') /\ Permutation ws ws' /\ Permutation (as_mods a) (as_mods a') /\
    (forall x, assembler_contains a' x = assembler_contains a x).
Proof.
  intros fuel sk files files' ws a J P H. apply (judged_run _ _ _ _ _ J) in H. destruct H as [H F].
  destruct (order_free _ _ _ _ _ P H) as (ws' & a' & R & PW & PM & C & _). exists ws', a'. split; [|auto]. apply (judged_run _ _ _ _ _ J). split; [exact R|].
  eapply Permutation_Forall; eassumption.
Qed.

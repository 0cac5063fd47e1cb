(** Proofs about assembling a program. *)
From Coq Require Import Permutation.
From Verif Require Import BaseProofs ModelNumeric ModelAddress ModelMnemonic ModelAMode ModelOpcode ModelExpr ModelInstr ModelState
  ModelStatement ModelMap ModelRanges ModelModule ModelAssembler SpecArith ArithProofs SpecRanges RangesProofs SpecInstr
  InstrProofs MapProofs SpecScope SpecLayout SpecOrder OrderProofs LoadProofs ScopeProofs PassProofs LayoutProofs
  SpecAssemble AssembleProofs.
Open Scope list_scope.

(** ** Contexts that know more. *)
Definition sub (c c' : lookup_ctx) : Prop := forall id v, c id = Ok v -> c' id = Ok v.
Lemma sub_refl : forall c, sub c c.
Proof. intros c id v H. exact H. Qed.
Lemma sub_trans : forall a b c, sub a b -> sub b c -> sub a c.
Proof. intros a b c A B id v H. auto. Qed.
Lemma means_mono : forall env env' e v, (forall i v, env i = Some v -> env' i = Some v) -> means env e v -> means env' e v.
Proof. intros env env' e v S M. induction M; try (econstructor; eauto; fail). Qed.
Lemma env_sub : forall c c', sub c c' -> forall i v, env_of c i = Some v -> env_of c' i = Some v.
Proof.
  intros c c' S i v H. unfold env_of in *. destruct (c i) as [w|e|u|] eqn:E; try discriminate H. injection H as ->.
  rewrite (S i v E). reflexivity.
Qed.
Lemma eval_sub : forall c c' e v, sub c c' -> eval c e = Ok v -> eval c' e = Ok v.
Proof. intros c c' e v S H. apply means_eval. eapply means_mono; [apply env_sub; exact S|]. apply eval_means. exact H. Qed.

(** ** Modules that know more values. *)
Definition line_grows (l l' : line) : Prop :=
  l' = l \/ (ln_value l = None /\ is_dir D_equ (ln_stmt l) /\ exists v, l' = ln_with_value v l).
Definition grows (m m' : module) : Prop :=
  md_name m' = md_name m /\ md_globals m' = md_globals m /\ md_deps m' = md_deps m /\
  md_owned m' = md_owned m /\ md_addr_names m' = md_addr_names m /\ md_targets m' = md_targets m /\
  md_rets m' = md_rets m /\ Forall2 line_grows (md_lines m) (md_lines m').
Lemma line_grows_refl : forall l, line_grows l l.
Proof. intros. left. reflexivity. Qed.
Lemma line_grows_trans : forall a b c, line_grows a b -> line_grows b c -> line_grows a c.
Proof.
  intros a b c [->|(N & E & v & ->)] [->|(N' & E' & v' & ->)]; [left; reflexivity|right; eauto|right; eauto|].
  discriminate N'.
Qed.
Lemma Forall2_refl : forall A (P : A -> A -> Prop) l, (forall x, P x x) -> Forall2 P l l.
Proof. intros A P l R. induction l; constructor; auto. Qed.
Lemma Forall2_trans : forall A (P : A -> A -> Prop), (forall a b c, P a b -> P b c -> P a c) ->
  forall l1 l2 l3, Forall2 P l1 l2 -> Forall2 P l2 l3 -> Forall2 P l1 l3.
Proof.
  intros A P T l1 l2 l3 F. revert l3. induction F as [|a b l1 l2 H F IH]; intros l3 G; inversion G; subst; constructor; eauto.
Qed.
Lemma grows_refl : forall m, grows m m.
Proof. intros. repeat split. apply Forall2_refl. apply line_grows_refl. Qed.
Lemma grows_trans : forall a b c, grows a b -> grows b c -> grows a c.
Proof.
  intros a b c (A1 & A2 & A3 & A4 & A5 & A6 & A7 & A8) (B1 & B2 & B3 & B4 & B5 & B6 & B7 & B8).
  repeat split; try congruence. eapply Forall2_trans; [exact line_grows_trans|exact A8|exact B8].
Qed.
Lemma Forall2_znth : forall A B (P : A -> B -> Prop) l l', Forall2 P l l' ->
  forall i x, znth l i = Some x -> exists y, znth l' i = Some y /\ P x y.
Proof.
  intros A B P l l' F. induction F as [|a b l l' H F IH]; intros i x X.
  - apply znth_some in X. rewrite zlen_nil in X. lia.
  - destruct (Z.eq_dec i 0) as [->|NE].
    + cbn in X. injection X as <-. exists b. split; [reflexivity|exact H].
    + pose proof (znth_some _ _ _ _ X). rewrite znth_cons in X by lia. apply IH in X. destruct X as (y & Y & PY).
      exists y. rewrite znth_cons by lia. auto.
Qed.
Lemma Forall2_zlen : forall A B (P : A -> B -> Prop) l l', Forall2 P l l' -> zlen l' = zlen l.
Proof. intros A B P l l' F. unfold zlen. rewrite (Forall2_same_length _ _ _ _ _ F). reflexivity. Qed.
Lemma Forall2_zset : forall A (P : A -> A -> Prop) l i x y, Forall2 P l l -> P x y -> Forall2 P (zset i x l) (zset i y l).
Proof.
  intros A P l i x y R H. destruct (Z_lt_dec i 0) as [N|N]; [unfold zset; destruct (Z.ltb_spec i 0); [exact R|lia]|].
  unfold zset. destruct (Z.ltb_spec i 0); [lia|]. clear N. generalize (Z.to_nat i) as n. clear i H0.
  induction l as [|a l IH]; intros n; [destruct n; constructor|]. inversion R; subst.
  destruct n; cbn; constructor; auto.
Qed.
Lemma grows_line : forall m m' j l, grows m m' -> znth (md_lines m) j = Some l ->
  exists l', znth (md_lines m') j = Some l' /\ line_grows l l'.
Proof. intros m m' j l (_ & _ & _ & _ & _ & _ & _ & F) H. exact (Forall2_znth _ _ _ _ _ F _ _ H). Qed.
Lemma grows_scopes : forall m m', grows m m' -> same_scopes m m'.
Proof.
  intros m m' (A1 & A2 & _ & _ & _ & _ & _ & F). split; [exact A1|]. split; [exact A2|].
  induction F as [|l l' ls ls' H F IH]; [reflexivity|]. cbn. rewrite IH. f_equal. destruct H as [->|(_ & _ & v & ->)]; reflexivity.
Qed.
Lemma grows_stmts : forall m m', grows m m' -> map ln_stmt (md_lines m') = map ln_stmt (md_lines m).
Proof.
  intros m m' (_ & _ & _ & _ & _ & _ & _ & F).
  induction F as [|l l' ls ls' H F IH]; [reflexivity|]. cbn. rewrite IH. f_equal. destruct H as [->|(_ & _ & v & ->)]; reflexivity.
Qed.
Lemma grows_lookup : forall m m' i v, grows m m' -> local_lookup m i = Ok v -> local_lookup m' i = Ok v.
Proof.
  intros m m' i v (_ & _ & _ & _ & _ & _ & _ & F) H. unfold local_lookup in *.
  destruct (znth (md_lines m) i) as [l|] eqn:L; [|discriminate H]. destruct (Forall2_znth _ _ _ _ _ F _ _ L) as (l' & L' & G).
  rewrite L'. destruct (ln_value l) as [w|] eqn:V; [|discriminate H]. destruct G as [->|(N & _)]; [rewrite V; exact H|congruence].
Qed.
Lemma grows_ctx : forall m m' sc ext ext', grows m m' -> sub ext ext' -> sub (module_ctx m sc ext) (module_ctx m' sc ext').
Proof.
  intros m m' sc ext ext' G S [[mn|] n] v H; unfold module_ctx in *; cbn [fi_module fi_name] in *;
    rewrite (scopes_index _ _ _ _ (grows_scopes _ _ G)).
  - rewrite (proj1 G). destruct (String.eqb mn (md_name m)); [|apply S; exact H].
    destruct (local_index m n []) as [i|e|u|]; try (apply S; exact H). eapply grows_lookup; eassumption.
  - destruct (local_index m n sc) as [i|e|u|]; try (apply S; exact H). eapply grows_lookup; eassumption.
Qed.
Lemma grows_value_for_name : forall m m' id v, grows m m' -> value_for_name m id = Ok v -> value_for_name m' id = Ok v.
Proof.
  intros m m' [[mn|] n] v G H; unfold value_for_name in *; cbn [fi_module fi_name] in *; [|discriminate H].
  destruct G as (A1 & A2 & _ & _ & _ & _ & _ & F). rewrite A1, A2. destruct (String.eqb mn (md_name m)); [|discriminate H].
  destruct (assoc_string n (md_globals m)) as [i|]; [|discriminate H].
  destruct (znth (md_lines m) i) as [l|] eqn:L; [|discriminate H]. destruct (Forall2_znth _ _ _ _ _ F _ _ L) as (l' & L' & G).
  rewrite L'. destruct (ln_value l) as [w|] eqn:V; [|discriminate H]. destruct G as [->|(N & _)]; [rewrite V; exact H|congruence].
Qed.
Lemma grows_assembler : forall ms ms' names, Forall2 grows ms ms' -> sub (assembler_ctx ms names) (assembler_ctx ms' names).
Proof.
  intros ms ms' names F id v H. unfold assembler_ctx in *. destruct (negb (fi_qualified id)); [discriminate H|].
  destruct (assoc_id id names) as [i|]; [|discriminate H]. destruct (znth ms i) as [m|] eqn:M; [|discriminate H].
  destruct (Forall2_znth _ _ _ _ _ F _ _ M) as (m' & M' & G). rewrite M'. eapply grows_value_for_name; eassumption.
Qed.

(** ** The second pass. *)
Lemma zset_grows : forall ls k l l', znth ls k = Some l -> line_grows l l' -> Forall2 line_grows ls (zset k l' ls).
Proof.
  intros ls k l l' H G. apply znth_split in H. destruct H as (a & b & -> & K). rewrite <- K, zset_mid.
  apply Forall2_app; [apply Forall2_refl; apply line_grows_refl|]. constructor; [exact G|].
  apply Forall2_refl. apply line_grows_refl.
Qed.
Definition ctx_mono (ext : module -> lookup_ctx) : Prop := forall a b, grows a b -> sub (ext a) (ext b).

Lemma second_loop_spec : forall n k ext m m', ctx_mono ext -> 0 <= k -> second_pass_loop n k ext m = Ok m' ->
  zlen (md_lines m) <= k + Z.of_nat n ->
  grows m m' /\
  forall j l d, k <= j -> znth (md_lines m) j = Some l -> ln_stmt l = SDir d -> d_name d = D_equ -> ln_value l = None ->
  exists e v l', d_arg d = Some e /\ znth (md_lines m') j = Some l' /\ ln_value l' = Some v /\
    eval (module_ctx m' (ln_scopes l) (ext m')) e = Ok v.
Proof.
  induction n as [|n IH]; intros k ext m m' MO K0 H LN; cbn [second_pass_loop] in H.
  - injection H as <-. split; [apply grows_refl|]. intros j l d J L. apply znth_some in L. lia.
  - destruct (znth (md_lines m) k) as [l|] eqn:L.
    2:{ injection H as <-. split; [apply grows_refl|]. intros j l d J L'. apply znth_some in L'. apply znth_none in L. lia. }
    bok H as m1 E.
    assert (C : (m1 = m /\ forall d, ln_stmt l = SDir d -> d_name d = D_equ -> ln_value l <> None) \/
                exists d e v, ln_stmt l = SDir d /\ d_name d = D_equ /\ ln_value l = None /\ d_arg d = Some e /\
                  eval (module_ctx m (ln_scopes l) (ext m)) e = Ok v /\
                  m1 = md_with_lines (zset k (ln_with_value v l) (md_lines m)) m).
    { destruct (ln_stmt l) as [i|d]; [injection E as <-; left; split; [reflexivity|discriminate]|].
      destruct (d_name d) eqn:D; try (injection E as <-; left; split; [reflexivity|intros d' X; injection X as <-; congruence]).
      destruct (ln_value l) as [w|] eqn:V; [injection E as <-; left; split; [reflexivity|discriminate]|].
      bok E as v EV. injection E as <-. right. destruct (d_arg d) as [e|] eqn:A; [|discriminate EV].
      exists d, e, v. repeat split; auto. }
    clear E. assert (G1 : grows m m1).
    { destruct C as [[-> _]|(d & e & v & SS & DD & N & _ & _ & ->)]; [apply grows_refl|].
      repeat split. cbn [md_lines md_with_lines]. eapply zset_grows; [exact L|]. right. split; [exact N|]. split; [exists d; auto|eauto]. }
    assert (LN1 : zlen (md_lines m1) = zlen (md_lines m)) by (eapply Forall2_zlen; apply G1).
    destruct (IH (k + 1) ext m1 m' MO ltac:(lia) H ltac:(lia)) as [G2 V2].
    assert (G : grows m m') by (eapply grows_trans; eassumption). split; [exact G|].
    intros j lj d J LJ S D N. destruct (Z.eq_dec j k) as [->|NE].
    + rewrite L in LJ. injection LJ as <-. destruct C as [[_ X]|(d' & e & v & S' & _ & _ & A & EV & ->)]; [destruct (X d S D N)|].
      rewrite S in S'. injection S' as <-. exists e, v.
      destruct (grows_line _ _ k (ln_with_value v l) G2) as (l' & L' & GL).
      { cbn. apply znth_zset_same. eapply znth_some. exact L. }
      exists l'. split; [exact A|]. split; [exact L'|]. split; [destruct GL as [->|(X & _)]; [reflexivity|discriminate X]|].
      eapply eval_sub; [|exact EV]. apply grows_ctx; [exact G|]. apply MO. exact G.
    + assert (LJ1 : znth (md_lines m1) j = Some lj).
      { destruct C as [[-> _]|(d' & e & v & _ & _ & _ & _ & _ & ->)]; [exact LJ|]. cbn. rewrite znth_zset_other by lia. exact LJ. }
      apply (V2 j lj d ltac:(lia) LJ1 S D N).
Qed.

Lemma zset_same_grows : forall ms i m m', znth ms i = Some m -> grows m m' -> Forall2 grows ms (zset i m' ms).
Proof.
  intros ms i m m' H G. apply znth_split in H. destruct H as (a & b & -> & K). rewrite <- K, zset_mid.
  apply Forall2_app; [apply Forall2_refl; apply grows_refl|]. constructor; [exact G|]. apply Forall2_refl. apply grows_refl.
Qed.

Lemma second_passes_spec : forall order names ms ms', second_passes order names ms = Ok ms' ->
  Forall2 grows ms ms' /\
  forall i, In i order -> exists m m', znth ms i = Some m /\ znth ms' i = Some m' /\
    forall j l d, znth (md_lines m) j = Some l -> ln_stmt l = SDir d -> d_name d = D_equ -> ln_value l = None ->
    exists e v l', d_arg d = Some e /\ znth (md_lines m') j = Some l' /\ ln_value l' = Some v /\
      eval (module_ctx m' (ln_scopes l) (assembler_ctx ms' names)) e = Ok v.
Proof.
  induction order as [|i order IH]; intros names ms ms' H; cbn [second_passes] in H.
  - injection H as <-. split; [apply Forall2_refl; apply grows_refl|]. intros i [].
  - destruct (znth ms i) as [m|] eqn:M; [|discriminate H]. bok H as m1 E.
    assert (MO : ctx_mono (fun cur => assembler_ctx (zset i cur ms) names)).
    { intros a b G. apply grows_assembler. apply Forall2_zset; [apply Forall2_refl; apply grows_refl|exact G]. }
    destruct (second_loop_spec _ _ _ _ _ MO (Z.le_refl 0) E) as [G V]; [unfold zlen; lia|].
    pose proof (zset_same_grows _ _ _ _ M G) as G1. destruct (IH _ _ _ H) as [G2 W].
    assert (G12 : Forall2 grows ms ms') by (eapply Forall2_trans; [exact grows_trans|exact G1|exact G2]).
    split; [exact G12|]. intros i' [<-|I].
    + destruct (Forall2_znth _ _ _ _ _ G2 i m1) as (m' & M' & GM).
      { apply znth_zset_same. eapply znth_some. exact M. }
      exists m, m'. split; [exact M|]. split; [exact M'|]. intros j l d L S D N.
      pose proof (znth_some _ _ _ _ L). destruct (V j l d ltac:(lia) L S D N) as (e & v & l1 & A & L1 & V1 & EV).
      destruct (grows_line _ _ _ _ GM L1) as (l' & L' & GL).
      exists e, v, l'. split; [exact A|]. split; [exact L'|]. split; [destruct GL as [->|(X & _)]; [exact V1|congruence]|].
      eapply eval_sub; [|exact EV]. apply grows_ctx; [exact GM|]. cbn beta.
      apply grows_assembler. exact G2.
    + destruct (W i' I) as (m2 & m' & M2 & M' & X).
      destruct (znth ms i') as [m0|] eqn:M0.
      2:{ apply znth_none in M0. apply znth_some in M2. rewrite zlen_zset in M2. lia. }
      exists m0, m'. split; [reflexivity|]. split; [exact M'|].
      destruct (Z.eq_dec i' i) as [->|NE].
      * rewrite M in M0. injection M0 as <-. rewrite znth_zset_same in M2 by (eapply znth_some; exact M). injection M2 as <-.
        intros j l d L S D N. pose proof (znth_some _ _ _ _ L).
        destruct (V j l d ltac:(lia) L S D N) as (e & v & l1 & A & L1 & V1 & EV).
        destruct (Forall2_znth _ _ _ _ _ G2 i m1) as (m'' & M'' & GM).
        { apply znth_zset_same. eapply znth_some. exact M. }
        rewrite M' in M''. injection M'' as <-.
        destruct (grows_line _ _ _ _ GM L1) as (l' & L' & GL).
        exists e, v, l'. split; [exact A|]. split; [exact L'|]. split; [destruct GL as [->|(Y & _)]; [exact V1|congruence]|].
        eapply eval_sub; [|exact EV]. apply grows_ctx; [exact GM|]. cbn beta. apply grows_assembler. exact G2.
      * rewrite znth_zset_other in M2 by congruence. rewrite M0 in M2. injection M2 as <-. exact X.
Qed.

(** ** Bytes in a context that knows more. *)
Lemma eval_opt_sub : forall c c' e v, sub c c' -> eval_opt c e = Ok v -> eval_opt c' e = Ok v.
Proof. intros c c' [e|] v S H; [|exact H]. eapply eval_sub; eassumption. Qed.
Lemma instr_bytes_sub : forall a c c' i b, sub c c' -> instr_bytes a c i = Ok b -> instr_bytes a c' i = Ok b.
Proof.
  intros a c c' i b S H. unfold instr_bytes in *.
  set (pm := match i_mnem i with PM_add => ([24], M_adc) | PM_sub => ([56], M_sbc) | m => ([], m) end) in *. clearbody pm.
  destruct pm as [prefix tm]. destruct (encode_opcode tm (i_mode i)) as [op|]; [|exact H].
  destruct (i_mode i); try exact H;
    repeat match type of H with
    | bind (eval_opt c ?e) _ = _ =>
        let v := fresh "v" in let E := fresh "E" in
        bok H as v E; rewrite (eval_opt_sub _ _ _ _ S E); cbn [bind]
    end; exact H.
Qed.
Lemma encode_list_sub : forall d c c' l b, sub c c' -> encode_list d c l = Ok b -> encode_list d c' l = Ok b.
Proof.
  intros d c c' l. induction l as [|e l IH]; intros b S H; [exact H|]. cbn [encode_list] in *.
  bok H as v E. bok H as r R. rewrite (eval_sub _ _ _ _ S E), (IH _ S R). exact H.
Qed.
Lemma stmt_bytes_sub : forall a c c' s b, sub c c' -> stmt_bytes a c s = Ok b -> stmt_bytes a c' s = Ok b.
Proof.
  intros a c c' [i|d] b S H; cbn [stmt_bytes] in *.
  - bok H as l E. rewrite (instr_bytes_sub _ _ _ _ _ S E). exact H.
  - unfold directive_bytes in *. destruct (d_name d); try exact H; bok H as l E; rewrite (encode_list_sub _ _ _ _ _ S E); exact H.
Qed.

(** ** Modules that differ only in the results of assembling. *)
Lemma same_code_value : forall m m' id, same_code m m' -> value_for_name m' id = value_for_name m id.
Proof. intros m m' id (A1 & A2 & A3 & _). unfold value_for_name. rewrite A1, A2, A3. reflexivity. Qed.
Lemma same_code_sym : forall m m', same_code m m' -> same_code m' m.
Proof. intros m m' (A1 & A2 & A3 & A4). repeat split; congruence. Qed.
Lemma same_code_assembler : forall ms ms' names, Forall2 same_code ms ms' -> sub (assembler_ctx ms names) (assembler_ctx ms' names).
Proof.
  intros ms ms' names F id v H. unfold assembler_ctx in *. destruct (negb (fi_qualified id)); [discriminate H|].
  destruct (assoc_id id names) as [i|]; [|discriminate H]. destruct (znth ms i) as [m|] eqn:M; [|discriminate H].
  destruct (Forall2_znth _ _ _ _ _ F _ _ M) as (m' & M' & G). rewrite M', (same_code_value _ _ _ G). exact H.
Qed.
Lemma sub_module_ctx : forall m sc ext ext', sub ext ext' -> sub (module_ctx m sc ext) (module_ctx m sc ext').
Proof. intros m sc ext ext' S. apply grows_ctx; [apply grows_refl|exact S]. Qed.
Lemma line_write_sub : forall ext ext' m l w, sub ext ext' -> line_write ext m l w -> line_write ext' m l w.
Proof.
  intros ext ext' m l w S (A & B & C & D). split; [exact A|]. split; [exact B|]. split; [|exact D].
  eapply stmt_bytes_sub; [|exact C]. apply sub_module_ctx. exact S.
Qed.

(** ** All first passes. *)
Lemma first_passes_spec : forall fuel order ms ms', NoDup order -> first_passes fuel order ms = Ok ms' ->
  (forall i, In i order -> exists m m', znth ms i = Some m /\ run_first_pass fuel m = Ok m' /\ znth ms' i = Some m') /\
  (forall i, ~ In i order -> znth ms' i = znth ms i).
Proof.
  intros fuel order. induction order as [|i order IH]; intros ms ms' N H; cbn [first_passes] in H.
  - injection H as <-. split; [intros i []|reflexivity].
  - destruct (znth ms i) as [m|] eqn:M; [|discriminate H]. bok H as m1 E. inversion N as [|? ? NI N']; subst.
    destruct (IH _ _ N' H) as [A B]. split.
    + intros j [<-|J].
      * exists m, m1. split; [exact M|]. split; [exact E|]. rewrite (B i NI). apply znth_zset_same. eapply znth_some. exact M.
      * destruct (A j J) as (a & b & X & Y & Z). exists a, b. split; [|auto]. rewrite znth_zset_other in X by congruence. exact X.
    + intros j J. cbn in J. rewrite B by tauto. apply znth_zset_other. intros ->. apply J. left. reflexivity.
Qed.

(** ** Assembling all modules. *)
Lemma same_code_zset : forall ms i m m', znth ms i = Some m -> same_code m m' -> Forall2 same_code ms (zset i m' ms).
Proof.
  intros ms i m m' H G. apply znth_split in H. destruct H as (a & b & -> & K). rewrite <- K, zset_mid.
  apply Forall2_app; [apply Forall2_refl; apply same_code_refl|]. constructor; [exact G|]. apply Forall2_refl. apply same_code_refl.
Qed.
Lemma module_assemble_spec : forall sk ext ws m ws' m', canonical (md_owned m) ->
  module_assemble sk ext ws m = (ws', Ok m') ->
  exists rs, ws' = ws ++ rs /\ Forall2 (line_write ext m) (filter has_bytes (md_lines m)) rs /\
    same_code m m' /\ canonical (md_owned m') /\
    (forall x, covers (md_owned m') x <-> covers (md_owned m) x \/ In x (flat_map touched rs)) /\
    NoDup (flat_map touched rs).
Proof.
  intros sk ext ws m ws' m' C H. unfold module_assemble in H. apply wbind_ok in H. destruct H as (ws1 & m1 & A & H).
  injection H as <- H. bok H as names N. injection H as <-.
  destruct (assemble_lines_spec _ _ _ _ _ _ _ C A) as (rs & -> & F & S & C1 & CV & ND & DJ).
  exists rs. split; [reflexivity|]. split; [exact F|]. split; [|auto].
  destruct S as (S1 & S2 & S3 & S4). repeat split; assumption.
Qed.

Lemma assemble_modules_spec : forall sk order names ws ms rm ws' ms' rm' log, NoDup order -> holds rm log ->
  (forall i m, In i order -> znth ms i = Some m -> md_owned m = []) ->
  assemble_modules sk order names ws ms rm = (ws', Ok (ms', rm')) ->
  exists wss log', ws' = ws ++ concat wss /\ Forall2 same_code ms ms' /\ holds rm' log' /\
    Forall2 (fun i rs => exists m, znth ms i = Some m /\
               Forall2 (line_write (assembler_ctx ms names) m) (filter has_bytes (md_lines m)) rs) order wss /\
    (forall x, covers (rm_used rm') x <-> covers (rm_used rm) x \/ In x (flat_map touched (concat wss))) /\
    NoDup (flat_map touched (concat wss)) /\ (forall x, In x (flat_map touched (concat wss)) -> ~ covers (rm_used rm) x).
Proof.
  intros sk order. induction order as [|i order IH]; intros names ws ms rm ws' ms' rm' log N HO OW H; cbn [assemble_modules] in H.
  - injection H as <- <- <-. exists [], log. rewrite app_nil_r. split; [reflexivity|].
    split; [apply Forall2_refl; apply same_code_refl|]. split; [exact HO|]. split; [constructor|]. cbn. split; [tauto|].
    split; [constructor|tauto].
  - destruct (znth ms i) as [m|] eqn:M; [|discriminate H]. apply wbind_ok in H. destruct H as (ws1 & m1 & A & H).
    assert (O0 : md_owned m = []) by (eapply OW; [left; reflexivity|exact M]).
    destruct (module_assemble_spec _ _ _ _ _ _ ltac:(rewrite O0; exact I) A) as (rs & -> & F & S & C1 & CV & ND).
    destruct (rm_insert rm (md_owned m1) i) as [ok rm1] eqn:RI. destruct ok; [|discriminate H].
    destruct (insert_exact _ _ _ _ _ _ _ HO C1 RI) as (DJ & HO1 & _). pose proof (proj1 DJ eq_refl) as DJ1. clear DJ.
    specialize (HO1 eq_refl). inversion N as [|? ? NI N']; subst.
    assert (OW' : forall j mj, In j order -> znth (zset i m1 ms) j = Some mj -> md_owned mj = []).
    { intros j mj J MJ. rewrite znth_zset_other in MJ by congruence. eapply OW; [right; exact J|exact MJ]. }
    destruct (IH _ _ _ _ _ _ _ _ N' HO1 OW' H) as (wss & log' & -> & SC & HO' & F2 & CV2 & ND2 & DJ2).
    pose proof (same_code_zset _ _ _ _ M S) as SC1.
    assert (COV : forall x, covers (rm_used rm1) x <-> covers (rm_used rm) x \/ In x (flat_map touched rs)).
    { intros x. destruct HO as (_ & _ & H3 & _), HO1 as (_ & _ & H3' & _). rewrite H3, H3'.
      assert (Q : covers (md_owned m1) x <-> In x (flat_map touched rs)) by (rewrite CV, O0, covers_nil; tauto).
      rewrite <- Q. split.
      - intros (cs & v & [E|E] & C); [injection E as <- <-; right; exact C|left; eauto].
      - intros [(cs & v & E & C)|C]; [exists cs, v; split; [right; exact E|exact C]|exists (md_owned m1), i; split; [left; reflexivity|exact C]]. }
    exists (rs :: wss), log'. cbn [concat]. rewrite app_assoc. split; [reflexivity|].
    split; [eapply Forall2_trans; [exact same_code_trans|exact SC1|exact SC]|]. split; [exact HO'|]. split.
    + constructor; [exists m; auto|]. clear -F2 SC1 NI M.
      assert (X : Forall (fun j => j <> i) order).
      { apply Forall_forall. intros j J ->. contradiction. }
      induction F2 as [|j rs' order wss (m2 & M2 & G) F2 IH]; constructor.
      * inversion X; subst. rewrite znth_zset_other in M2 by congruence. exists m2. split; [exact M2|].
        eapply Forall2_impl'; [|exact G]. intros l w. apply line_write_sub. apply same_code_assembler.
        clear -SC1. induction SC1; constructor; auto. apply same_code_sym. assumption.
      * apply IH; [intros J; apply NI; right; exact J|]. inversion X; assumption.
    + rewrite flat_map_app. split; [|split].
      * intros x. rewrite CV2, COV, in_app_iff. tauto.
      * apply nodup_app_iff. split; [exact ND|]. split; [exact ND2|]. intros x X Y. apply (DJ2 x Y), COV. right. exact X.
      * intros x. rewrite in_app_iff. intros [X|X] Y.
        -- destruct HO as (_ & _ & H3 & _). apply H3 in Y. destruct Y as (cs & v & E & C). apply (DJ1 cs v x E); [|exact C].
           apply CV. right. exact X.
        -- apply (DJ2 x X), COV. left. exact Y.
Qed.

(** ** The whole program. *)
Lemma add_files_spec : forall files a a', add_files a files = Ok a' ->
  exists ms, Forall2 (fun f m => load_asm_file f = Ok m) files ms /\
    as_mods a' = as_mods a ++ ms /\ as_map a' = as_map a.
Proof.
  induction files as [|f files IH]; intros a a' H; cbn [add_files] in H.
  - injection H as <-. exists []. rewrite app_nil_r. split; [constructor|auto].
  - bok H as a1 E. unfold add_asm_file in E. bok E as m L. injection E as <-.
    destruct (IH _ _ H) as (ms & F & M & R). exists (m :: ms). split; [constructor; assumption|].
    cbn in M, R. rewrite <- app_assoc in M. split; assumption.
Qed.
Lemma order_all : forall ms order names, find_assembly_order ms = Ok (order, names) ->
  NoDup order /\ forall i, In i order <-> 0 <= i < zlen ms.
Proof.
  intros ms order names H. pose proof (order_ends ms) as E. rewrite H in E. destruct E as [O L].
  destruct O as (N & R & _). split; [exact N|]. intros i. split; [apply R|].
  intros I. destruct (complete_positions ms order N R) as [rest P].
  assert (rest = []) as ->.
  { apply Permutation_length in P. unfold indices in P. rewrite app_length, map_length, seq_length in P.
    unfold zlen in L. destruct rest; [reflexivity|cbn in P; lia]. }
  rewrite app_nil_r in P. eapply Permutation_in; [apply Permutation_sym; exact P|]. unfold indices.
  apply in_map_iff. exists (Z.to_nat i). rewrite in_seq. unfold zlen in I. split; lia.
Qed.
Lemma znth_Forall2 : forall A B (P : A -> B -> Prop) l l', zlen l' = zlen l ->
  (forall i x, znth l i = Some x -> exists y, znth l' i = Some y /\ P x y) -> Forall2 P l l'.
Proof.
  intros A B P l. induction l as [|a l IH]; intros l' L H.
  - destruct l'; [constructor|]. rewrite zlen_cons, zlen_nil in L. pose proof (zlen_nonneg _ l'). lia.
  - destruct l' as [|b l']; [rewrite zlen_cons, zlen_nil in L; pose proof (zlen_nonneg _ l); lia|].
    rewrite !zlen_cons in L. constructor.
    + destruct (H 0 a eq_refl) as (y & Y & PY). cbn in Y. injection Y as <-. exact PY.
    + apply IH; [lia|]. intros i x X. pose proof (znth_some _ _ _ _ X).
      destruct (H (i + 1) x) as (y & Y & PY).
      { rewrite znth_cons by lia. replace (i + 1 - 1) with i by lia. exact X. }
      rewrite znth_cons in Y by lia. replace (i + 1 - 1) with i in Y by lia. eauto.
Qed.
Lemma first_passes_zlen : forall fuel order ms ms', first_passes fuel order ms = Ok ms' -> zlen ms' = zlen ms.
Proof.
  intros fuel order. induction order as [|i order IH]; intros ms ms' H; cbn [first_passes] in H; [injection H as <-; reflexivity|].
  destruct (znth ms i); [|discriminate H]. bok H as m1 E. rewrite (IH _ _ H). apply zlen_zset.
Qed.
Lemma first_passes_all : forall fuel ms order names ms', find_assembly_order ms = Ok (order, names) ->
  first_passes fuel order ms = Ok ms' -> Forall2 (fun m m' => run_first_pass fuel m = Ok m') ms ms'.
Proof.
  intros fuel ms order names ms' O H. destruct (order_all _ _ _ O) as [N I].
  apply znth_Forall2; [eapply first_passes_zlen; exact H|]. intros i x X.
  destruct (first_passes_spec _ _ _ _ N H) as [A _].
  destruct (A i) as (m & m' & M & R & M'); [apply I; eapply znth_some; exact X|].
  rewrite X in M. injection M as <-. eauto.
Qed.
Lemma first_pass_owned : forall fuel m m', run_first_pass fuel m = Ok m' -> md_owned m' = md_owned m.
Proof. intros fuel m m' H. unfold run_first_pass in H. bok H as a A. bok H as b B. bok H as c C. injection H as <-. reflexivity. Qed.
Lemma loaded_owned : forall file m, load_asm_file file = Ok m -> md_owned m = [].
Proof. intros file m H. apply load_exact in H. destruct H as (src & name & _ & _ & _ & ->). reflexivity. Qed.

Lemma Forall2_in_r : forall A B (P : A -> B -> Prop) l l' y, Forall2 P l l' -> In y l' -> exists x, P x y.
Proof.
  intros A B P l l' y F. induction F as [|a b l l' H F IH]; intros I; [destruct I|].
  destruct I as [<-|I]; [eauto|auto].
Qed.

Definition finishes (m m' : module) : Prop := exists m'', grows m m'' /\ same_code m'' m'.

Lemma sized_not_equ : forall s, 0 < stmt_size s -> ~ is_dir D_equ s /\ ~ is_dir D_org s.
Proof.
  intros s H. split; intros (d & -> & D); cbn in H; unfold directive_size in H; rewrite D in H; lia.
Qed.

Lemma line_value_address : forall file fuel m0 m1 l w ext m, load_asm_file file = Ok m0 -> run_first_pass fuel m0 = Ok m1 ->
  forall l1, In l1 (md_lines m1) -> line_grows l1 l -> has_bytes l = true -> line_write ext m l w -> ln_value l = Some (fst w).
Proof.
  intros file fuel m0 m1 l w ext m L F l1 I G HB ((v & V & A) & A24 & _ & _).
  rewrite V. f_equal. apply In_nth_error in I. destruct I as [k K].
  destruct (layout_located _ _ _ _ L F k l1 K) as [LO SZ].
  assert (S : ln_stmt l = ln_stmt l1) by (destruct G as [->|(_ & _ & x & ->)]; reflexivity).
  unfold has_bytes in HB. apply Z.ltb_lt in HB. rewrite S in HB. destruct (SZ HB) as [v1 V1].
  assert (v1 = v) as -> by (destruct G as [->|(N & _)]; congruence).
  apply LO in V1. destruct V1 as (b & s & af & EQ & LB & P).
  assert (s = ln_stmt l1) as ->.
  { apply (f_equal (fun x => nth_error x k)) in EQ. rewrite nth_error_map, K in EQ. cbn in EQ.
    rewrite <- LB, nth_error_app2, Nat.sub_diag in EQ by lia. cbn in EQ. congruence. }
  destruct (sized_not_equ _ HB) as [_ NO]. destruct P as [O|(_ & _ & N)]; [destruct NO; eapply org_at_dir; exact O|].
  apply next_address_range in N. unfold addr24 in N. unfold label_to_address, mk_address in A.
  rewrite to_uint32_small in A by lia. destruct (Z.leb_spec v 16777216); [injection A as ->; reflexivity|discriminate A].
Qed.

Lemma program_spec : forall fuel sk files ws a, assemble fuel sk files = (ws, Ok a) ->
  exists ms0 ms1 order wss,
    Forall2 (fun f m => load_asm_file f = Ok m) files ms0 /\
    find_assembly_order ms0 = Ok (order, as_names a) /\
    Forall2 (fun m m' => run_first_pass fuel m = Ok m') ms0 ms1 /\
    Forall2 finishes ms1 (as_mods a) /\
    ws = concat wss /\
    Forall2 (fun i rs => exists m, znth (as_mods a) i = Some m /\ writes_module a m rs) order wss /\
    (forall m, In m (as_mods a) -> constants_hold a m) /\
    NoDup (flat_map touched ws) /\ (forall x, assembler_contains a x = true <-> In x (flat_map touched ws)).
Proof.
  intros fuel sk files ws a H. unfold assemble in H. apply wbind_ok in H. destruct H as (ws1 & a0 & A & H).
  injection A as <- A. apply add_files_spec in A. destruct A as (ms0 & LD & M0 & R0). cbn in M0, R0.
  unfold assembler_assemble in H. rewrite M0, R0 in H.
  apply wbind_ok in H. destruct H as (ws1 & [order names] & A & H). injection A as <- FO.
  apply wbind_ok in H. destruct H as (ws1 & ms1 & A & H). injection A as <- FP.
  apply wbind_ok in H. destruct H as (ws1 & ms2 & A & H). injection A as <- SP.
  apply wbind_ok in H. destruct H as (ws1 & [ms3 rm] & AM & H). injection H as <- <-.
  destruct (order_all _ _ _ FO) as [N I].
  pose proof (first_passes_all _ _ _ _ _ FO FP) as F1.
  destruct (second_passes_spec _ _ _ _ SP) as [G2 CS].
  assert (Z1 : zlen ms1 = zlen ms0) by (eapply first_passes_zlen; exact FP).
  assert (Z2 : zlen ms2 = zlen ms1) by (eapply Forall2_zlen; exact G2).
  assert (OW : forall i m, In i order -> znth ms2 i = Some m -> md_owned m = []).
  { intros i m J M. apply I in J.
    destruct (znth_in_range _ ms0 i J) as [m0 M0']. destruct (Forall2_znth _ _ _ _ _ F1 _ _ M0') as (m1 & M1 & R1).
    destruct (Forall2_znth _ _ _ _ _ G2 _ _ M1) as (m2 & M2 & GR). rewrite M in M2. injection M2 as <-.
    destruct GR as (_ & _ & _ & -> & _). rewrite (first_pass_owned _ _ _ R1).
    apply znth_in in M0'. destruct (Forall2_in_r _ _ _ _ _ _ LD M0') as [f L]. eapply loaded_owned. exact L. }
  assert (HE : holds (RangeMap (T := Z) [] []) []) by (apply inserts_holds; constructor).
  destruct (assemble_modules_spec _ _ _ _ _ _ _ _ _ _ N HE OW AM) as (wss & log' & -> & SC & HO & FW & CV & ND & _).
  cbn [app]. exists ms0, ms1, order, wss. cbn [as_names as_mods].
  split; [exact LD|]. split; [exact FO|]. split; [exact F1|].
  assert (FIN : Forall2 finishes ms1 ms3).
  { clear -G2 SC. revert ms3 SC. induction G2 as [|x y l l' G F IH]; intros ms3 SC; inversion SC; subst; constructor; [|auto].
    exists y. auto. }
  split; [exact FIN|]. split; [reflexivity|].
  set (fin := Assembler ms3 rm names).
  assert (EXT : sub (assembler_ctx ms2 names) (assembler_ctx ms3 names)) by (apply same_code_assembler; exact SC).
  split; [|split; [|split]].
  - assert (INS : Forall (fun i => 0 <= i < zlen ms0) order) by (apply Forall_forall; intros i; apply I).
    clear -FW INS LD F1 G2 SC EXT.
    induction FW as [|i rs od wss (m & M & F) FW IH]; constructor.
    + inversion INS as [|? ? J INS']; subst.
      destruct (Forall2_znth _ _ _ _ _ SC _ _ M) as (m3 & M3 & S3). exists m3. split; [exact M3|].
      unfold writes_module. replace (md_lines m3) with (md_lines m) by (destruct S3 as (_ & X & _); congruence).
      destruct (znth_in_range _ ms0 i J) as [m0 M0]. destruct (Forall2_znth _ _ _ _ _ F1 _ _ M0) as (m1 & M1 & R1).
      destruct (Forall2_znth _ _ _ _ _ G2 _ _ M1) as (m2 & M2 & GR). rewrite M in M2. injection M2 as <-.
      assert (LF : exists f, load_asm_file f = Ok m0).
      { apply znth_in in M0. exact (Forall2_in_r _ _ _ _ _ _ LD M0). }
      destruct LF as [f LF].
      assert (IN : Forall (fun l => In l (md_lines m) /\ has_bytes l = true) (filter has_bytes (md_lines m))).
      { apply Forall_forall. intros l L. apply filter_In in L. exact L. }
      revert F IN. generalize (filter has_bytes (md_lines m)) as fl. intros fl F IN.
      clear -F IN LF R1 GR EXT S3. induction F as [|l w fl rs LW F IH]; constructor.
      * inversion IN as [|? ? [L HB] _]; subst. apply in_znth in L. destruct L as [k K].
        destruct GR as (_ & _ & _ & _ & _ & _ & _ & FL).
        assert (GL : exists l1, In l1 (md_lines m1) /\ line_grows l1 l).
        { pose proof (znth_some _ _ _ _ K) as KR. rewrite (Forall2_zlen _ _ _ _ _ FL) in KR.
          destruct (znth_in_range _ (md_lines m1) k KR) as [l1 L1]. destruct (Forall2_znth _ _ _ _ _ FL _ _ L1) as (l' & L' & G).
          rewrite K in L'. injection L' as <-. exists l1. split; [eapply znth_in; exact L1|exact G]. }
        destruct GL as (l1 & IL & GL).
        pose proof (line_value_address _ _ _ _ _ _ _ _ LF R1 l1 IL GL HB LW) as V.
        destruct LW as (_ & A24 & SB & LN). split; [exact V|]. split; [exact A24|]. split; [|exact LN].
        unfold context. cbn [as_mods as_names fin]. rewrite (same_code_ctx _ _ _ _ S3).
        eapply stmt_bytes_sub; [|exact SB]. apply sub_module_ctx. exact EXT.
      * apply IH. inversion IN; assumption.
    + inversion INS; subst. apply IH; assumption.
  - intros m IM l d L S D. apply in_znth in IM. destruct IM as [i M3].
    pose proof (znth_some _ _ _ _ M3) as R. rewrite (Forall2_zlen _ _ _ _ _ SC), Z2, Z1 in R.
    destruct (CS i) as (m1 & m2 & M1 & M2 & X); [apply I; exact R|].
    destruct (Forall2_znth _ _ _ _ _ SC _ _ M2) as (m' & M' & S3). rewrite M3 in M'. injection M' as <-.
    destruct (Forall2_znth _ _ _ _ _ G2 _ _ M1) as (m2' & M2' & GR). rewrite M2 in M2'. injection M2' as <-.
    assert (LE : md_lines m = md_lines m2) by (destruct S3 as (_ & Y & _); congruence). rewrite LE in L.
    apply in_znth in L. destruct L as [k K]. destruct GR as (_ & _ & _ & _ & _ & _ & _ & FL).
    pose proof (znth_some _ _ _ _ K) as KR. rewrite (Forall2_zlen _ _ _ _ _ FL) in KR.
    destruct (znth_in_range _ (md_lines m1) k KR) as [l1 L1]. destruct (Forall2_znth _ _ _ _ _ FL _ _ L1) as (l' & L' & G).
    rewrite K in L'. injection L' as <-.
    assert (S1 : ln_stmt l1 = SDir d) by (destruct G as [->|(_ & _ & x & ->)]; exact S).
    assert (SS : ln_scopes l = ln_scopes l1) by (destruct G as [->|(_ & _ & x & ->)]; reflexivity).
    assert (VN : ln_value l1 = None).
    { destruct (znth_in_range _ ms0 i R) as [m0 M0']. destruct (Forall2_znth _ _ _ _ _ F1 _ _ M0') as (m1' & M1' & R1).
      rewrite M1 in M1'. injection M1' as <-.
      assert (LF : exists f, load_asm_file f = Ok m0).
      { apply znth_in in M0'. exact (Forall2_in_r _ _ _ _ _ _ LD M0'). }
      destruct LF as [f LF]. destruct (ln_value l1) as [v|] eqn:V; [exfalso|reflexivity].
      unfold znth in L1. destruct (k <? 0); [discriminate L1|].
      apply (layout_located _ _ _ _ LF R1 _ _ L1) in V. destruct V as (b & s & af & EQ & LB & P).
      assert (s = ln_stmt l1) as ->.
      { apply (f_equal (fun x => nth_error x (Z.to_nat k))) in EQ. rewrite nth_error_map, L1 in EQ. cbn in EQ.
        rewrite <- LB, nth_error_app2, Nat.sub_diag in EQ by lia. cbn in EQ. congruence. }
      rewrite S1 in P. destruct P as [O|(_ & NE & _)].
      - apply org_at_dir in O. destruct O as (d' & E & D'). injection E as <-. congruence.
      - destruct NE. exists d. auto. }
    destruct (X k l1 d L1 S1 D VN) as (e & v & l2 & A & L2 & V & EV). rewrite K in L2. injection L2 as <-.
    exists e, v. split; [exact A|]. split; [|exact V]. apply eval_means. unfold context. cbn [as_mods as_names fin].
    rewrite (same_code_ctx _ _ _ _ S3), SS. eapply eval_sub; [|exact EV]. apply sub_module_ctx. exact EXT.
  - exact ND.
  - intros x. unfold assembler_contains, rm_contains. cbn [as_map fin]. rewrite contains_exact by apply HO.
    rewrite CV. cbn [rm_used]. rewrite covers_nil. tauto.
Qed.

(** Where the statements of a program are. *)
Lemma finishes_lines : forall m m', finishes m m' -> Forall2 line_grows (md_lines m) (md_lines m').
Proof. intros m m' (m'' & (_ & _ & _ & _ & _ & _ & _ & F) & (_ & -> & _)). exact F. Qed.
Lemma grows_stmts' : forall ls ls', Forall2 line_grows ls ls' -> map ln_stmt ls' = map ln_stmt ls.
Proof.
  intros ls ls' F. induction F as [|l l' ls ls' [->|(_ & _ & v & ->)] F IH]; [reflexivity| |]; cbn; rewrite IH; reflexivity.
Qed.
Lemma program_located : forall fuel sk files ws a, assemble fuel sk files = (ws, Ok a) ->
  forall m, In m (as_mods a) -> addresses_hold m.
Proof.
  intros fuel sk files ws a H m I k l v K NE. destruct (program_spec _ _ _ _ _ H) as (ms0 & ms1 & order & wss & LD & _ & F1 & FI & _).
  apply in_znth in I. destruct I as [i M3].
  pose proof (znth_some _ _ _ _ M3) as R. rewrite (Forall2_zlen _ _ _ _ _ FI), (Forall2_zlen _ _ _ _ _ F1) in R.
  destruct (znth_in_range _ ms0 i R) as [m0 M0]. destruct (Forall2_znth _ _ _ _ _ F1 _ _ M0) as (m1 & M1 & R1).
  destruct (Forall2_znth _ _ _ _ _ FI _ _ M1) as (m' & M' & FM). rewrite M3 in M'. injection M' as <-.
  apply znth_in in M0. destruct (Forall2_in_r _ _ _ _ _ _ LD M0) as [f LF].
  apply finishes_lines in FM. rewrite (grows_stmts' _ _ FM).
  assert (E : exists l1, nth_error (md_lines m1) k = Some l1 /\ line_grows l1 l).
  { clear -FM K. revert k K. induction FM as [|x y ls ls' G F IH]; intros [|k] K; try discriminate K; cbn in *.
    - injection K as <-. eauto.
    - auto. }
  destruct E as (l1 & L1 & G).
  assert (l = l1) as ->.
  { destruct G as [->|(_ & D & x & ->)]; [reflexivity|]. destruct NE. exact D. }
  apply (proj1 (layout_located _ _ _ _ LF R1 k l1 L1)).
Qed.

(** What the modules hold. *)
Lemma with_mode_same : forall i, with_mode (i_mode i) i = i.
Proof. intros [m s a b c r]. reflexivity. Qed.
Lemma settled_fix : forall i f i', fix_addressing_mode i f = Ok i' -> exists m', settled f (i_mode i) m' /\ i' = with_mode m' i.
Proof.
  intros i f i' H. destruct (fix_mode_exact i f) as (A & B & C). unfold settled.
  assert (DEC : forall a b : amode, {a = b} + {a <> b}) by decide equality.
  destruct (DEC (i_mode i) A_imm_fm) as [E|E].
  - destruct (A E) as (A1 & A2 & A3). rewrite E. destruct (fl_m f) eqn:F.
    all: try (rewrite (A1 eq_refl) in H; injection H as <-; eauto).
    all: try (rewrite (A2 eq_refl) in H; injection H as <-; eauto).
    all: destruct (A3 eq_refl) as [e X]; rewrite X in H; discriminate H.
  - destruct (DEC (i_mode i) A_imm_fx) as [E'|E'].
    + destruct (B E') as (A1 & A2 & A3). rewrite E'. destruct (fl_x f) eqn:F.
      all: try (rewrite (A1 eq_refl) in H; injection H as <-; eauto).
      all: try (rewrite (A2 eq_refl) in H; injection H as <-; eauto).
      all: destruct (A3 eq_refl) as [e X]; rewrite X in H; discriminate H.
    + rewrite (C E E') in H. injection H as <-. exists (i_mode i). rewrite with_mode_same. split; [|reflexivity].
      destruct (i_mode i); try reflexivity; congruence.
Qed.
Lemma layout_keeps : forall ls pc ls', layout pc ls = Ok ls' ->
  Forall2 (fun l l' => ln_stmt l' = ln_stmt l /\ ln_in l' = ln_in l /\ ln_reached l' = ln_reached l) ls ls'.
Proof.
  induction ls as [|l ls IH]; intros pc ls' H; cbn [layout] in H; [injection H as <-; constructor|].
  bok H as pc' E. destruct pc' as [a|].
  - bok H as rest R. injection H as <-. constructor; [|eauto]. destruct (stmt_is_dir D_equ (ln_stmt l)); repeat split.
  - destruct (0 <? stmt_size (ln_stmt l)); [discriminate H|]. bok H as rest R. injection H as <-. constructor; [repeat split|eauto].
Qed.
Lemma first_pass_resolved : forall fuel m m', run_first_pass fuel m = Ok m' ->
  Forall2 resolved (map ln_stmt (md_lines m)) (md_lines m').
Proof.
  intros fuel m m' H. unfold run_first_pass in H. bok H as ls E. bok H as ls2 E2. bok H as ls3 E3. injection H as <-.
  cbn [md_lines md_with_lines]. apply first_pass_loop_core in E.
  assert (S : map ln_stmt ls = map ln_stmt (md_lines m)).
  { apply (f_equal (map fst)) in E. rewrite !map_map in E. exact E. }
  rewrite <- S. apply fix_modes_spec in E2. apply layout_keeps in E3. clear E S.
  revert ls3 E3. induction E2 as [|l l2 ls ls2 R F IH]; intros ls3 E3; inversion E3 as [|? l3 ? rest (S & I & RR) F3]; subst; constructor; [|auto].
  unfold resolves_to in R. unfold resolved. destruct (ln_stmt l) as [i|d] eqn:SL.
  - destruct R as (RE & i' & X & ->). cbn in S, I, RR. rewrite RR. split; [exact RE|]. rewrite I, S.
    destruct (settled_fix _ _ _ X) as (m' & ST & ->). eauto.
  - subst l2. rewrite S. exact SL.
Qed.
Lemma mk_lines_stmts : forall d src i sc, map ln_stmt (mk_lines d i sc src) = map snd src.
Proof. intros d. induction src as [|[labels s] src IH]; intros; cbn [mk_lines map]; [reflexivity|]. rewrite IH. reflexivity. Qed.
Lemma loaded_source : forall file m, load_asm_file file = Ok m -> exists src, SpecScope.reads file src /\ map ln_stmt (md_lines m) = map snd src.
Proof.
  intros file m H. apply load_exact in H. destruct H as (src & name & R & _ & _ & ->). exists src. split; [exact R|].
  change (md_lines (module_of name src)) with (mk_lines (dlist src) 0 [] src). apply mk_lines_stmts.
Qed.
Lemma program_holds : forall fuel sk files ws a, assemble fuel sk files = (ws, Ok a) -> Forall2 holds_file files (as_mods a).
Proof.
  intros fuel sk files ws a H. destruct (program_spec _ _ _ _ _ H) as (ms0 & ms1 & order & wss & LD & _ & F1 & FI & _).
  clear H. revert LD ms1 F1 FI. generalize (as_mods a) as ms2. generalize files as fs. clear. intros fs ms2 LD. revert ms2.
  induction LD as [|f m0 fs ms0 L LD IH]; intros ms2 ms1 F1 FI; inversion F1 as [|? m1 ? ms1' R1 F1']; subst;
    inversion FI as [|? m2 ? ms2' FM FI']; subst; constructor; [|eauto].
  destruct (loaded_source _ _ L) as (src & RD & SS). exists src, m0. split; [exact RD|]. split; [exact L|]. split.
  - eapply same_scopes_trans; [eapply first_pass_scopes; exact R1|]. destruct FM as (m' & G & SC).
    eapply same_scopes_trans; [apply grows_scopes; exact G|]. destruct SC as (A1 & A2 & A3 & _).
    unfold same_scopes. rewrite A1, A2, A3. auto.
  - rewrite <- SS. pose proof (first_pass_resolved _ _ _ R1) as RS. apply finishes_lines in FM.
    clear -RS FM. revert FM. generalize (md_lines m2) as ls'. generalize RS. generalize (map ln_stmt (md_lines m0)) as ss.
    generalize (md_lines m1) as ls. clear. intros ls ss RS. induction RS as [|s l ss ls R F IH]; intros ls' FM;
      inversion FM as [|? l' ? ? G FM']; subst; constructor; [|auto].
    destruct G as [->|(_ & _ & v & ->)]; [exact R|]. unfold resolved in *. destruct s; exact R.
Qed.

Lemma program_output : forall fuel sk files ws a, assemble fuel sk files = (ws, Ok a) ->
  Forall2 holds_file files (as_mods a) /\
  exists order wss, NoDup order /\ (forall i, In i order <-> 0 <= i < zlen (as_mods a)) /\
    Forall2 (fun i rs => exists m, nth_error (as_mods a) (Z.to_nat i) = Some m /\ writes_module a m rs) order wss /\
    ws = concat wss.
Proof.
  intros fuel sk files ws a H. split; [eapply program_holds; exact H|].
  destruct (program_spec _ _ _ _ _ H) as (ms0 & ms1 & order & wss & _ & FO & F1 & FI & -> & FW & _).
  destruct (order_all _ _ _ FO) as [N I]. exists order, wss. split; [exact N|]. split.
  - intros i. rewrite (Forall2_zlen _ _ _ _ _ FI), (Forall2_zlen _ _ _ _ _ F1). apply I.
  - split; [|reflexivity]. clear -FW. induction FW as [|i rs od wss (m & M & W) FW IH]; constructor; [|exact IH].
    exists m. split; [|exact W]. unfold znth in M. destruct (i <? 0); [discriminate M|exact M].
Qed.

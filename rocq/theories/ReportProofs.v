(** Proofs of what an assembled program tells. *)
From Coq Require Import Permutation.
From Verif Require Import Base BaseProofs ModelNumeric ModelAddress ModelExpr ModelMnemonic ModelAMode ModelOpcode ModelState ModelInstr ModelToken
  ModelStatement ModelParse ModelMap ModelRanges ModelModule ModelAssembler SpecArith SpecState SpecScope SpecRanges RangesProofs SpecLayout SpecAssemble SpecSafe SpecSink
  MapProofs StateProofs ArithProofs DisStateProofs LoadProofs ScopeProofs AssembleProofs SafeProgramProofs ProgramProofs ModesProofs SinkProofs PermuteProofs OrderFreeProofs SpecReport.
Open Scope string_scope.
Open Scope list_scope.
Open Scope Z_scope.

(** ** Each module, as it was assembled. *)
Lemma any_sink : forall fuel sk files ws a, assemble fuel sk files = (ws, Ok a) -> assemble fuel takes_all files = (ws, Ok a).
Proof.
  intros fuel sk files ws a H. destruct (assemble fuel takes_all files) as [ws' r] eqn:E. rewrite (sink_only_ends _ sk _ _ _ E) in H.
  destruct (offer sk [] ws') as [ws2 [u|e|u|]] eqn:O; cbn [unless_ended] in H; try discriminate H.
  apply offer_ok in O. cbn in O. subst ws2. exact H.
Qed.
Definition made (fuel : nat) (a : assembler) (file : list string) (m3 : module) : Prop :=
  exists m0 m1 m2 ext w, load_asm_file file = Ok m0 /\ run_first_pass fuel m0 = Ok m1 /\ grows m1 m2 /\
    module_assemble takes_all ext [] m2 = (w, Ok m3) /\ same_code m2 m3 /\ sub ext (assembler_ctx (as_mods a) (as_names a)).
Lemma all_made : forall fuel sk files ws a, assemble fuel sk files = (ws, Ok a) -> Forall2 (made fuel a) files (as_mods a).
Proof.
  intros fuel sk files ws a H. apply any_sink in H. unfold assemble in H. apply wbind_ok in H. destruct H as (ws1 & a0 & A & H).
  injection A as <- A. apply add_files_spec in A. destruct A as (ms & LD & M0 & R0). cbn in M0, R0.
  unfold assembler_assemble in H. rewrite M0, R0 in H.
  apply wbind_ok in H. destruct H as (ws0 & [order names] & FO & H). injection FO as <- FO.
  apply wbind_ok in H. destruct H as (ws1 & ms1 & F1 & H). injection F1 as <- F1.
  apply wbind_ok in H. destruct H as (ws2 & ms2 & F2 & H). injection F2 as <- F2.
  apply wbind_ok in H. destruct H as (ws3 & [ms3 rm] & F3 & H). injection H as <- <-. cbn [as_mods as_map as_names].
  destruct (order_all _ _ _ FO) as [ND AL].
  pose proof (first_passes_all _ _ _ _ _ FO F1) as A1.
  destruct (second_each _ _ _ _ ND F2) as (G2 & _ & _).
  assert (OW : forall i m, In i order -> znth ms2 i = Some m -> md_owned m = []).
  { intros i m I M. apply AL in I. destruct (znth_in_range _ ms i I) as [m0 Z0].
    destruct (Forall2_znth _ _ _ _ _ A1 _ _ Z0) as (m1 & Z1 & R1). destruct (Forall2_znth _ _ _ _ _ G2 _ _ Z1) as (m2 & Z2 & GR).
    rewrite M in Z2. injection Z2 as <-. destruct GR as (_ & _ & _ & -> & _). rewrite (first_pass_owned _ _ _ R1).
    apply znth_in in Z0. destruct (Forall2_in_r _ _ _ _ _ _ LD Z0) as [f L]. eapply loaded_owned. exact L. }
  assert (HE : @holds Z (RangeMap [] []) []) by (apply inserts_holds; constructor).
  destruct (modules_each _ _ _ _ _ _ _ _ _ ND HE OW F3) as (SC & _ & _ & _ & _ & wss & _ & F4).
  pose proof (Forall2_zlen _ _ _ _ _ LD) as L0. pose proof (Forall2_zlen _ _ _ _ _ A1) as L1. pose proof (Forall2_zlen _ _ _ _ _ G2) as L2. pose proof (Forall2_zlen _ _ _ _ _ SC) as L3.
  apply znth_Forall2; [congruence|]. intros i file ZF.
  destruct (Forall2_znth _ _ _ _ _ LD _ _ ZF) as (m0 & Z0 & LF).
  destruct (Forall2_znth _ _ _ _ _ A1 _ _ Z0) as (m1 & Z1 & R1). destruct (Forall2_znth _ _ _ _ _ G2 _ _ Z1) as (m2 & Z2 & GR).
  assert (I : In i order) by (apply AL; eapply znth_some; exact Z0).
  assert (FI : exists m m' msc rs, znth ms2 i = Some m /\ znth ms3 i = Some m' /\ Forall2 same_code ms2 msc /\ module_assemble takes_all (assembler_ctx msc names) [] m = (rs, Ok m')).
  { clear -F4 I. induction F4 as [|j rs order wss (m & m' & msc & X1 & X2 & X3 & _ & X4) F4 IH]; [destruct I|].
    destruct I as [->|I]; [exists m, m', msc, rs; auto|apply IH; exact I]. }
  destruct FI as (m & m3 & msc & rs & Y1 & Y2 & Y3 & R3). rewrite Z2 in Y1. injection Y1 as <-.
  exists m3. split; [exact Y2|]. exists m0, m1, m2, (assembler_ctx msc names), rs. split; [exact LF|]. split; [exact R1|]. split; [exact GR|]. split; [exact R3|].
  destruct (Forall2_znth _ _ _ _ _ SC _ _ Z2) as (m3' & Y2' & S3). rewrite Y2 in Y2'. injection Y2' as <-. split; [exact S3|].
  apply same_code_assembler. eapply Forall2_trans; [exact same_code_trans| |exact SC].
  clear -Y3. induction Y3; constructor; [apply same_code_sym; assumption|assumption].
Qed.

(** ** What a line adds. *)
Lemma as_address_ok : forall v x, mk_address v = Ok x <-> as_address v x.
Proof.
  intros v x. unfold mk_address, as_address, to_uint32. change (2 ^ 24) with 16777216. change (2 ^ 32) with 4294967296.
  destruct (Z.leb_spec (v mod 4294967296) 16777216) as [L|L]; split; intros H; try discriminate H.
  - injection H as <-. auto.
  - destruct H as [-> _]. reflexivity.
  - destruct H as [-> H]. lia.
Qed.
Lemma bank_address : forall s p v, mk_address p = Ok s -> mk_address2 (addr_bank s) v = p / 2 ^ 16 mod 2 ^ 8 * 2 ^ 16 + v mod 2 ^ 16.
Proof.
  intros s p v H. apply as_address_ok in H. destruct H as [-> _]. unfold mk_address2, addr_bank, to_uint8, to_uint16.
  rewrite Z.shiftr_div_pow2 by lia. rewrite Z.shiftl_mul_pow2 by lia.
  change 256 with (2 ^ 8). change 65536 with (2 ^ 16).
  replace ((p mod 2 ^ 32 / 2 ^ 16) mod 2 ^ 8) with ((p / 2 ^ 16) mod 2 ^ 8).
  2:{ change (2 ^ 32) with (2 ^ 16 * 2 ^ 16). rewrite (Z.rem_mul_r p (2 ^ 16) (2 ^ 16)) by lia.
      rewrite (Z.mul_comm (2 ^ 16) (p / 2 ^ 16 mod 2 ^ 16)), Z.div_add by lia. rewrite (Z.div_small (p mod 2 ^ 16)) by (apply Z.mod_pos_bound; lia).
      rewrite Z.add_0_l. generalize (p / 2 ^ 16). intros q. change (2 ^ 16) with (2 ^ 8 * 2 ^ 8). rewrite (Z.rem_mul_r q (2 ^ 8) (2 ^ 8)) by lia.
      rewrite (Z.mul_comm (2 ^ 8) (q / 2 ^ 8 mod 2 ^ 8)), Z.mod_add by lia. rewrite Z.mod_mod by lia. reflexivity. }
  rewrite lor_disjoint by (try lia; apply Z.mod_pos_bound; lia). reflexivity.
Qed.

Definition tells_t (c : lookup_ctx) (l : line) (t : Z) (f : flags) : Prop :=
  match ln_stmt l with
  | SInstr i =>
      f = es_flags (ln_in l) /\
      exists e v, i_arg1 i = Some e /\ means no_names e v /\
        (i_mode i = A_dir_l /\ (i_mnem i = M_jmp \/ i_mnem i = M_jsl) /\ as_address v t \/
         i_mode i = A_dir_w /\ (i_mnem i = M_jmp \/ i_mnem i = M_jsr) /\
         exists p, ln_value l = Some p /\ t = p / 2 ^ 16 mod 2 ^ 8 * 2 ^ 16 + v mod 2 ^ 16)
  | SDir d =>
      f = d_flags d /\ d_name d = D_remote /\
      exists e v, d_arg d = Some e /\ means (env_of c) e v /\ as_address v t
  end.
Definition tells_r (c : lookup_ctx) (l : line) (t : Z) (r : retconv) : Prop :=
  exists d, ln_stmt l = SDir d /\ d_ret d = r /\ r <> RC_default /\
    (d_name d = D_entry /\ (exists v, ln_value l = Some v /\ as_address v t) \/
     d_name d = D_remote /\ exists e v, d_arg d = Some e /\ means (env_of c) e v /\ as_address v t).
Lemma as_address_fun : forall v x y, as_address v x -> as_address v y -> x = y.
Proof. intros v x y [-> _] [-> _]. reflexivity. Qed.

(** The target of a jump. *)
Lemma far_target : forall i p s o, mk_address p = Ok s -> far_branch_target i s = Ok o -> forall t,
  o = Some t <-> exists e v, i_arg1 i = Some e /\ means no_names e v /\
        (i_mode i = A_dir_l /\ (i_mnem i = M_jmp \/ i_mnem i = M_jsl) /\ as_address v t \/
         i_mode i = A_dir_w /\ (i_mnem i = M_jmp \/ i_mnem i = M_jsr) /\ t = p / 2 ^ 16 mod 2 ^ 8 * 2 ^ 16 + v mod 2 ^ 16).
Proof.
  intros i p s o P H t.
  assert (ME : forall v, eval_opt null_ctx (i_arg1 i) = Ok v <-> exists e, i_arg1 i = Some e /\ means no_names e v).
  { intros v. destruct (i_arg1 i) as [e|]; cbn [eval_opt].
    - split; [intros E; exists e; split; [reflexivity|apply (eval_means null_ctx e v E)]|]. intros (e' & X & M). injection X as <-. exact (means_eval null_ctx e v M).
    - split; [discriminate|intros (e & X & _); discriminate X]. }
  assert (K : (i_mode i = A_dir_l /\ (i_mnem i = M_jmp \/ i_mnem i = M_jsl)) \/ (i_mode i = A_dir_w /\ (i_mnem i = M_jmp \/ i_mnem i = M_jsr)) \/
     (o = None /\ ~ (i_mode i = A_dir_l /\ (i_mnem i = M_jmp \/ i_mnem i = M_jsl)) /\ ~ (i_mode i = A_dir_w /\ (i_mnem i = M_jmp \/ i_mnem i = M_jsr)))).
  { unfold far_branch_target in H. cbv zeta in H.
    destruct (i_mode i), (i_mnem i); try (right; right; split; [injection H as <-; reflexivity|split; intros [X [Y|Y]]; discriminate]); auto. }
  destruct K as [[A B]|[[A B]|(-> & NA & NB)]].
  - assert (H' : match eval_opt null_ctx (i_arg1 i) with Ok v => let* a := mk_address v in Ok (Some a) | Err _ => Ok None | UB u => UB u | OutOfFuel => OutOfFuel end = Ok o).
    { rewrite <- H. unfold far_branch_target. cbv zeta. rewrite A. destruct B as [-> | ->]; reflexivity. }
    clear H. destruct (eval_opt null_ctx (i_arg1 i)) as [v|e| |] eqn:E; try discriminate H'.
    + bok H' as x X. injection H' as <-. apply as_address_ok in X. destruct (proj1 (ME v) eq_refl) as (e & I & M). split.
      * intros Y. injection Y as <-. exists e, v. auto 6.
      * intros (e' & v' & I' & M' & [(_ & _ & X')|(A' & _)]); [|congruence]. f_equal. assert (e' = e) as -> by congruence.
        rewrite (means_functional null_ctx e v' v M' M) in X'. eapply as_address_fun; eassumption.
    + injection H' as <-. split; [discriminate|]. intros (e' & v' & I' & M' & _). assert (X : Ok v' = Err e) by (rewrite <- (proj2 (ME v')); [reflexivity|eauto]). discriminate X.
  - assert (H' : match eval_opt null_ctx (i_arg1 i) with Ok v => Ok (Some (mk_address2 (addr_bank s) v)) | Err _ => Ok None | UB u => UB u | OutOfFuel => OutOfFuel end = Ok o).
    { rewrite <- H. unfold far_branch_target. cbv zeta. rewrite A. destruct B as [-> | ->]; reflexivity. }
    clear H. destruct (eval_opt null_ctx (i_arg1 i)) as [v|e| |] eqn:E; try discriminate H'.
    + injection H' as <-. rewrite (bank_address _ _ _ P). destruct (proj1 (ME v) eq_refl) as (e & I & M). split.
      * intros Y. injection Y as <-. exists e, v. auto 7.
      * intros (e' & v' & I' & M' & [(A' & _)|(_ & _ & ->)]); [congruence|]. assert (e' = e) as -> by congruence.
        rewrite (means_functional null_ctx e v' v M' M). reflexivity.
    + injection H' as <-. split; [discriminate|]. intros (e' & v' & I' & M' & _). assert (X : Ok v' = Err e) by (rewrite <- (proj2 (ME v')); [reflexivity|eauto]). discriminate X.
  - split; [discriminate|]. intros (e & v & _ & _ & [(A & B & _)|(A & B & _)]); exfalso; [apply NA|apply NB]; auto.
Qed.

Lemma line_reports : forall ext c l ws m ws' m1 m2,
  assemble_stmt takes_all ext l ws m = (ws', Ok m1) -> match ln_stmt l with SInstr i => record_far_target l i m1 | SDir _ => Ok m1 end = Ok m2 ->
  sub (module_ctx m (ln_scopes l) ext) c ->
  (exists o, md_targets m2 = match o with Some kv => put (md_targets m) kv | None => md_targets m end /\ forall t f, o = Some (t, f) <-> tells_t c l t f) /\
  (exists o, md_rets m2 = match o with Some (k, r) => om_set k r (md_rets m) | None => md_rets m end /\ forall t r, o = Some (t, r) <-> tells_r c l t r).
Proof.
  intros ext c l ws m ws' m1 m2 A B S. unfold assemble_stmt in A. cbv zeta in A.
  assert (EQ : forall d, ln_stmt l = SDir d -> m2 = m1) by (intros d E; rewrite E in B; congruence).
  assert (NO : forall d, ln_stmt l = SDir d -> d_name d <> D_entry -> d_name d <> D_remote -> md_targets m1 = md_targets m -> md_rets m1 = md_rets m ->
    (exists o, md_targets m2 = match o with Some kv => put (md_targets m) kv | None => md_targets m end /\ forall t f, o = Some (t, f) <-> tells_t c l t f) /\
    (exists o, md_rets m2 = match o with Some (k, r) => om_set k r (md_rets m) | None => md_rets m end /\ forall t r, o = Some (t, r) <-> tells_r c l t r)).
  { intros d E N1 N2 T R. rewrite (EQ d E). split; exists None; (split; [assumption|]); intros t f; (split; [discriminate|]).
    - unfold tells_t. rewrite E. intros (_ & X & _). contradiction.
    - unfold tells_r. rewrite E. intros (d' & X & _ & _ & [(Y & _)|(Y & _)]); injection X as <-; contradiction. }
  assert (IN : forall i, ln_stmt l = SInstr i -> md_targets m1 = md_targets m -> md_rets m1 = md_rets m ->
    (exists o, md_targets m2 = match o with Some kv => put (md_targets m) kv | None => md_targets m end /\ forall t f, o = Some (t, f) <-> tells_t c l t f) /\
    (exists o, md_rets m2 = match o with Some (k, r) => om_set k r (md_rets m) | None => md_rets m end /\ forall t r, o = Some (t, r) <-> tells_r c l t r)).
  { intros i E T R. rewrite E in B. clear A EQ NO. unfold record_far_target in B. destruct (ln_value l) as [p|] eqn:V; [|discriminate B]. bok B as s P. bok B as o F.
    pose proof (far_target _ _ _ _ P F) as FT. split.
    - exists (match o with Some t => Some (t, es_flags (ln_in l)) | None => None end). split.
      + destruct o as [t|]; injection B as <-; [|exact T]. cbn [md_targets md_with_targets]. unfold put. rewrite T. reflexivity.
      + intros t f. unfold tells_t. rewrite E. specialize (FT t). split.
        * destruct o as [t'|]; [|discriminate]. intros X. injection X as -> <-. split; [reflexivity|]. destruct (proj1 FT eq_refl) as (e & v & X1 & X2 & X3).
          exists e, v. split; [exact X1|]. split; [exact X2|]. destruct X3 as [X3|(Y1 & Y2 & Y3)]; [left; exact X3|right]. split; [exact Y1|]. split; [exact Y2|]. exists p. auto.
        * intros (-> & e & v & X1 & X2 & X3). assert (O : o = Some t); [|rewrite O; reflexivity]. apply FT. exists e, v. split; [exact X1|]. split; [exact X2|].
          destruct X3 as [X3|(Y1 & Y2 & p' & Y3 & Y4)]; [left; exact X3|right]. assert (p' = p) as -> by congruence. auto.
    - exists None. split; [destruct o as [t|]; injection B as <-; exact R|]. intros t r. split; [discriminate|]. intros (d & X & _). congruence. }
  destruct (0 <? stmt_size (ln_stmt l)) eqn:SZ.
  - destruct (ln_value l); [|discriminate A]. apply wbind_ok in A. destruct A as (w1 & ad & _ & A). apply wbind_ok in A. destruct A as (w2 & u & _ & A).
    apply wbind_ok in A. destruct A as (w3 & [[] ow] & _ & A); [|discriminate A]. injection A as _ <-.
    destruct (ln_stmt l) as [i|d] eqn:E; [apply (IN i); reflexivity|].
    apply (NO d); try reflexivity; intros X; unfold stmt_size, directive_size in SZ; rewrite X in SZ; discriminate SZ.
  - destruct (ln_stmt l) as [i|d] eqn:E; [injection A as _ <-; apply (IN i); reflexivity|].
    destruct (d_name d) eqn:D; try (injection A as _ <-; apply (NO d); [reflexivity|congruence|congruence|reflexivity|reflexivity]).
    + clear NO IN. destruct (ln_value l) as [v|] eqn:V; [|discriminate A]. injection A as _ A. bok A as x X. injection A as <-. rewrite (EQ d eq_refl).
      apply as_address_ok in X. split.
      * exists None. split; [destruct (rc_is_default (d_ret d)); reflexivity|]. intros t f. split; [discriminate|]. unfold tells_t. rewrite E. intros (_ & Y & _). congruence.
      * destruct (rc_is_default (d_ret d)) eqn:RD.
        -- exists None. split; [reflexivity|]. intros t r. split; [discriminate|]. intros (d' & Y & Y1 & Y2 & _). assert (d' = d) as -> by congruence.
           destruct (d_ret d); try discriminate RD. congruence.
        -- exists (Some (x, d_ret d)). split; [reflexivity|]. intros t r. split.
           ++ intros Y. injection Y as <- <-. exists d. split; [exact E|]. split; [reflexivity|]. split; [intros Y; rewrite Y in RD; discriminate RD|]. left. split; [exact D|]. exists v. auto.
           ++ intros (d' & Y & Y1 & Y2 & [(Y3 & v' & Y4 & Y5)|(Y3 & _)]); assert (d' = d) as -> by congruence; [|congruence].
              assert (v' = v) as -> by congruence. subst r. f_equal. f_equal. eapply as_address_fun; eassumption.
    + clear NO IN. injection A as _ A. bok A as v V. bok A as x X. injection A as <-. rewrite (EQ d eq_refl). apply as_address_ok in X.
      destruct (d_arg d) as [e|] eqn:AR; [|discriminate V]. cbn [eval_opt] in V. apply (eval_sub _ _ _ _ S) in V. apply eval_means in V.
      assert (U : forall e' v' t, Some e = Some e' -> means (env_of c) e' v' -> as_address v' t -> t = x).
      { intros e' v' t Y1 Y2 Y3. injection Y1 as <-. rewrite (means_functional c e v' v Y2 V) in Y3. eapply as_address_fun; eassumption. }
      split.
      * exists (Some (x, d_flags d)). split; [destruct (rc_is_default (d_ret d)); reflexivity|]. intros t f. unfold tells_t. rewrite E. split.
        -- intros Y. injection Y as <- <-. split; [reflexivity|]. split; [exact D|]. exists e, v. auto.
        -- intros (-> & _ & e' & v' & Y1 & Y2 & Y3). rewrite AR in Y1. rewrite (U _ _ _ Y1 Y2 Y3). reflexivity.
      * destruct (rc_is_default (d_ret d)) eqn:RD.
        -- exists None. split; [reflexivity|]. intros t r. split; [discriminate|]. intros (d' & Y & Y1 & Y2 & _). assert (d' = d) as -> by congruence.
           destruct (d_ret d); try discriminate RD. congruence.
        -- exists (Some (x, d_ret d)). split; [reflexivity|]. intros t r. split.
           ++ intros Y. injection Y as <- <-. exists d. split; [exact E|]. split; [reflexivity|]. split; [intros Y; rewrite Y in RD; discriminate RD|]. right. split; [exact D|]. exists e, v. auto.
           ++ intros (d' & Y & Y1 & Y2 & [(Y3 & _)|(Y3 & e' & v' & Y4 & Y5 & Y6)]); assert (d' = d) as -> by congruence; [congruence|].
              subst r. rewrite AR in Y4. rewrite (U _ _ _ Y4 Y5 Y6). reflexivity.
Qed.

(** ** What a module adds. *)
Lemma stmt_code : forall ext l ws m ws' m1, assemble_stmt takes_all ext l ws m = (ws', Ok m1) -> same_code m m1 /\ md_addr_names m1 = md_addr_names m.
Proof.
  intros ext l ws m ws' m1 A. unfold assemble_stmt in A. cbv zeta in A. destruct (0 <? stmt_size (ln_stmt l)).
  - destruct (ln_value l); [|discriminate A]. apply wbind_ok in A. destruct A as (w1 & ad & _ & A). apply wbind_ok in A. destruct A as (w2 & u & _ & A).
    apply wbind_ok in A. destruct A as (w3 & [[] ow] & _ & A); [|discriminate A]. injection A as _ <-. repeat split; reflexivity.
  - destruct (ln_stmt l) as [i|d]; [injection A as _ <-; split; [apply same_code_refl|reflexivity]|].
    destruct (d_name d); try (injection A as _ <-; split; [apply same_code_refl|reflexivity]).
    + destruct (ln_value l); [|discriminate A]. injection A as _ A. bok A as x X. injection A as <-. destruct (rc_is_default (d_ret d)); repeat split; reflexivity.
    + injection A as _ A. bok A as v V. bok A as x X. injection A as <-. destruct (rc_is_default (d_ret d)); repeat split; reflexivity.
Qed.
Lemma lines_report : forall ext c ls ws m ws' m', assemble_lines takes_all ext ls ws m = (ws', Ok m') -> (forall l, sub (module_ctx m (ln_scopes l) ext) (c l)) ->
  same_code m m' /\ md_addr_names m' = md_addr_names m /\
  (exists kvs, md_targets m' = fold_left put kvs (md_targets m) /\ forall t f, In (t, f) kvs <-> exists l, In l ls /\ tells_t (c l) l t f) /\
  (sorted_keys (md_rets m) -> sorted_keys (md_rets m') /\ forall t r, om_find t (md_rets m') = Some r <->
    (exists before l after, ls = before ++ l :: after /\ tells_r (c l) l t r /\ forall l' r', In l' after -> ~ tells_r (c l') l' t r') \/
    (om_find t (md_rets m) = Some r /\ forall l r', In l ls -> ~ tells_r (c l) l t r')).
Proof.
  intros ext c ls. induction ls as [|l ls IH]; intros ws m ws' m' H S; cbn [assemble_lines] in H.
  - injection H as _ <-. split; [apply same_code_refl|]. split; [reflexivity|]. split.
    + exists []. split; [reflexivity|]. intros t f. split; [intros []|intros (l & [] & _)].
    + intros SO. split; [exact SO|]. intros t r. split; [intros X; right; split; [exact X|intros l r' []]|].
      intros [(before & l & after & X & _)|[X _]]; [destruct before; discriminate X|exact X].
  - apply wbind_ok in H. destruct H as (w1 & m1 & A & H). apply wbind_ok in H. destruct H as (w2 & m2 & B & H). injection B as <- B.
    destruct (stmt_code _ _ _ _ _ _ A) as [S1 N1].
    assert (S2 : same_code m1 m2).
    { destruct (ln_stmt l); [eapply far_target_code; exact B|injection B as <-; apply same_code_refl]. }
    assert (N2 : md_addr_names m2 = md_addr_names m1).
    { destruct (ln_stmt l); [|injection B as <-; reflexivity]. unfold record_far_target in B. destruct (ln_value l); [|discriminate B]. bok B as s P. bok B as o F. destruct o; injection B as <-; reflexivity. }
    pose proof (same_code_trans _ _ _ S1 S2) as S12.
    destruct (line_reports _ (c l) _ _ _ _ _ _ A B (S l)) as [(o & T & TO) (q & R & RO)].
    destruct (IH _ _ _ _ H) as (S3 & N3 & (kvs & TK & KO) & RK); [intros l'; rewrite (same_code_ctx _ _ _ _ S12); apply S|].
    split; [eapply same_code_trans; eassumption|]. split; [congruence|]. split.
    + exists (match o with Some kv => kv :: kvs | None => kvs end). split; [rewrite TK, T; destruct o; reflexivity|]. intros t f. split.
      * intros I. destruct o as [kv|].
        -- destruct I as [->|I]; [exists l; split; [left; reflexivity|apply TO; reflexivity]|]. apply KO in I. destruct I as (l' & I & X). exists l'. split; [right; exact I|exact X].
        -- apply KO in I. destruct I as (l' & I & X). exists l'. split; [right; exact I|exact X].
      * intros (l' & [<-|I] & X).
        -- apply TO in X. rewrite X. left. reflexivity.
        -- assert (Y : In (t, f) kvs) by (apply KO; eauto). destruct o; [right|]; exact Y.
    + intros SO. assert (SO2 : sorted_keys (md_rets m2)) by (rewrite R; destruct q as [[k r]|]; [apply om_set_sorted|]; exact SO).
      destruct (RK SO2) as [SO' F]. split; [exact SO'|]. intros t r. rewrite F.
      assert (F2 : om_find t (md_rets m2) = Some r <-> tells_r (c l) l t r \/ (om_find t (md_rets m) = Some r /\ forall r', ~ tells_r (c l) l t r')).
      { rewrite R. destruct q as [[k v]|].
        - rewrite om_find_set by exact SO. destruct (Z.eqb_spec k t) as [->|N].
          + split; [intros X; left; apply RO; congruence|]. intros [X|[_ X]]; [apply RO in X; congruence|]. exfalso. apply (X v). apply RO. reflexivity.
          + split; [intros X; right; split; [exact X|]; intros r' Y; apply RO in Y; congruence|]. intros [X|[X _]]; [apply RO in X; congruence|exact X].
        - split; [intros X; right; split; [exact X|]; intros r' Y; apply RO in Y; discriminate Y|]. intros [X|[X _]]; [apply RO in X; discriminate X|exact X]. }
      rewrite F2. split.
      * intros [(before & l' & after & -> & X & Y)|([X|[X N]] & Y)].
        -- left. exists (l :: before), l', after. auto.
        -- left. exists [], l, ls. auto.
        -- right. split; [exact X|]. intros l' r' [<-|I]; [apply N|apply Y; exact I].
      * intros [(before & l' & after & E & X & Y)|[X Y]].
        -- destruct before as [|b before]; injection E as -> E; [right; subst after; auto|left; exists before, l', after; auto].
        -- right. split; [|intros l' r' I; apply Y; right; exact I]. right. split; [exact X|]. intros r'. apply Y. left. reflexivity.
Qed.

(** ** Names of addresses. *)
Lemma assoc_z_app : forall A k (l1 l2 : list (Z * A)), assoc_z k (l1 ++ l2) = match assoc_z k l1 with Some v => Some v | None => assoc_z k l2 end.
Proof. intros A k. induction l1 as [|[j v] l1 IH]; intros l2; cbn; [reflexivity|]. destruct (j =? k); [reflexivity|apply IH]. Qed.
Lemma names_report : forall ls gs acc names, name_addresses ls gs acc = Ok names -> forall x,
  (forall n, assoc_z x names = Some n -> assoc_z x acc = Some n \/ exists i l v, In (n, i) gs /\ znth ls i = Some l /\ ln_value l = Some v /\ as_address v x) /\
  (assoc_z x names = None -> assoc_z x acc = None /\ forall n i l v, In (n, i) gs -> znth ls i = Some l -> ln_value l = Some v -> ~ as_address v x).
Proof.
  intros ls gs. induction gs as [|[n i] gs IH]; intros acc names H x; cbn [name_addresses] in H.
  - injection H as <-. split; [auto|]. intros X. split; [exact X|]. intros n i l v [].
  - destruct (znth ls i) as [l|] eqn:L; [|discriminate H]. destruct (ln_value l) as [v|] eqn:V; [|discriminate H]. bok H as a A. apply as_address_ok in A.
    destruct (IH _ _ H x) as [P Q]. clear IH H.
    assert (E : assoc_z x (match assoc_z a acc with Some _ => acc | None => acc ++ [(a, n)] end) = match assoc_z x acc with Some y => Some y | None => if a =? x then Some n else None end).
    { destruct (assoc_z a acc) eqn:AA.
      - destruct (assoc_z x acc) eqn:AX; [reflexivity|]. destruct (Z.eqb_spec a x); [congruence|reflexivity].
      - rewrite assoc_z_app. cbn. reflexivity. }
    rewrite E in P, Q. split.
    + intros n' X. destruct (P n' X) as [Y|(i' & l' & v' & I & Y)]; [|right; exists i', l', v'; split; [right; exact I|exact Y]].
      destruct (assoc_z x acc); [left; exact Y|]. destruct (Z.eqb_spec a x) as [->|]; [|discriminate Y]. injection Y as <-. right. exists i, l, v. split; [left; reflexivity|auto].
    + intros X. destruct (Q X) as [Y Z]. destruct (assoc_z x acc); [discriminate Y|]. split; [reflexivity|]. intros n' i' l' v' [I|I] L' V' X'; [|exact (Z _ _ _ _ I L' V' X')].
      injection I as -> ->. assert (l' = l) as -> by congruence. assert (v' = v) as -> by congruence. rewrite (as_address_fun _ _ _ A X'), Z.eqb_refl in Y. discriminate Y.
Qed.
Lemma name_none : forall m x, name_for_address m x = None <-> md_name m = "" \/ assoc_z x (md_addr_names m) = None.
Proof.
  intros m x. unfold name_for_address. destruct (String.eqb_spec (md_name m) "") as [E|N]; [tauto|]. destruct (assoc_z x (md_addr_names m)); split; intros H; auto; try discriminate H.
  destruct H; [contradiction|discriminate].
Qed.

Lemma module_report : forall fuel a file m, made fuel a file m ->
  (exists kvs, md_targets m = fold_left put kvs [] /\ forall t f, In (t, f) kvs <-> exists l, In l (md_lines m) /\ tells_target a m l t f) /\
  (sorted_keys (md_rets m) /\ forall t r, om_find t (md_rets m) = Some r <-> module_returns a m t r) /\
  (forall x n, assoc_z x (md_addr_names m) = Some n -> names_place file m n x) /\
  (forall x, assoc_z x (md_addr_names m) = None -> forall n, ~ names_place file m n x) /\
  con_targets (md_targets m) /\ con_module m.
Proof.
  intros fuel a file m (m0 & m1 & m2 & ext & w & L & R1 & G & R3 & SC & SU).
  assert (INI : md_targets m2 = [] /\ md_rets m2 = [] /\ md_addr_names m2 = [] /\ md_globals m2 = md_globals m0).
  { destruct G as (_ & G2 & _ & _ & G5 & G6 & G7 & _). rewrite G2, G5, G6, G7. unfold run_first_pass in R1. bok R1 as x1 X1. bok R1 as x2 X2. bok R1 as x3 X3. injection R1 as <-.
    apply load_exact in L. destruct L as (src & name & _ & _ & _ & ->). repeat split; reflexivity. }
  destruct INI as (I1 & I2 & I3 & I4).
  assert (CON : con_targets (md_targets m)).
  { destruct (file_con [file] file m0 (or_introl eq_refl) L) as [C0 _]. destruct (run_first_con _ _ _ R1 C0) as [C1 _]. eapply module_targets; [exact R3|eapply grows_con; eassumption|]. rewrite I1. intros k f []. }
  assert (CM : con_module m).
  { destruct (file_con [file] file m0 (or_introl eq_refl) L) as [C0 _]. destruct (run_first_con _ _ _ R1 C0) as [C1 _]. pose proof (grows_con _ _ G C1) as C2.
    unfold con_module in *. destruct SC as (_ & X & _). rewrite X. exact C2. }
  unfold module_assemble in R3. apply wbind_ok in R3. destruct R3 as (w1 & m3 & A & B). injection B as _ B. bok B as nm N.
  destruct (lines_report _ (fun l => context a m l) _ _ _ _ _ A) as (S3 & N3 & T & R).
  { intros l. unfold context. rewrite (same_code_ctx _ _ _ _ SC). apply sub_module_ctx. exact SU. }
  injection B as <-. cbn [md_lines md_targets md_rets md_addr_names md_with_addr_names] in *. rewrite I1 in T. rewrite I2 in R. destruct (R Logic.I) as [R0 R4].
  assert (LN : md_lines m3 = md_lines m2) by (destruct S3 as (_ & X & _); congruence).
  split; [|split; [|split; [|split]]].
  - destruct T as (kvs & T1 & T2). exists kvs. split; [exact T1|]. intros t f. rewrite T2, LN. split; intros X; exact X.
  - split; [exact R0|]. intros t r. rewrite R4. unfold module_returns. cbn [md_lines md_with_addr_names]. rewrite LN. split.
    + intros [X|[X _]]; [exact X|discriminate X].
    + intros X. left. exact X.
  - intros x n X. destruct (names_report _ _ _ _ N x) as [P _]. destruct (P n X) as [Y|(i & l & v & I & Z1 & Z2 & Z3)].
    + rewrite N3, I3 in Y. discriminate Y.
    + assert (I' : In (n, i) (md_globals m0)) by (rewrite <- I4; destruct S3 as (_ & _ & X3 & _); rewrite <- X3; exact I).
      apply load_exact in L. destruct L as (src & name & RD & _ & _ & ->). cbn in I'. apply in_scope_in, defined_dlist in I'. exists src, i, l, v. auto.
  - intros x X n (src & k & l & v & RD & D & Z1 & Z2 & Z3). destruct (names_report _ _ _ _ N x) as [_ P]. destruct (P X) as [_ Q]. apply (Q n k l v); [|exact Z1|exact Z2|exact Z3].
    destruct S3 as (_ & _ & X3 & _). rewrite X3, I4. apply load_exact in L. destruct L as (src' & name & RD' & _ & _ & ->). rewrite (reads_det _ _ _ RD RD') in D. cbn. apply in_scope_in, defined_dlist. exact D.
  - split; [exact CON|exact CM].
Qed.

(** ** Modes taken together. *)
Lemma merge_allows : forall a b, bit_allows (bit_merge a b) a /\ bit_allows (bit_merge a b) b.
Proof. intros [] []; cbn; unfold bit_allows; auto. Qed.
Lemma merge_least : forall h a b, bit_allows h a -> bit_allows h b -> bit_allows h (bit_merge a b).
Proof. intros h [] [] [->| ->] [H|H]; cbn; unfold bit_allows; auto; discriminate H. Qed.
Lemma width_allows : forall e1 e2 w1 w2, width_consistent e1 w1 -> width_consistent e2 w2 ->
  let w := constrained (bit_merge w1 w2) (bit_merge e1 e2) in bit_allows w w1 /\ bit_allows w w2.
Proof. intros [] [] [] []; cbn; unfold bit_allows; intros H1 H2; auto; try discriminate; try (destruct H1; discriminate); try (destruct H2; discriminate); exfalso; auto. Qed.
Lemma width_least : forall e1 e2 w1 w2 eh wh, width_consistent e1 w1 -> width_consistent e2 w2 -> width_consistent eh wh ->
  bit_allows eh e1 -> bit_allows eh e2 -> bit_allows wh w1 -> bit_allows wh w2 -> bit_allows wh (constrained (bit_merge w1 w2) (bit_merge e1 e2)).
Proof.
  intros e1 e2 w1 w2 eh wh C1 C2 C [->| ->] B2 [->| ->] B4; unfold bit_allows; auto.
  - destruct B2 as [<-|E], B4 as [<-|W].
    + left. destruct e1, w1; cbn in *; try reflexivity; try discriminate; try contradiction; destruct C; discriminate.
    + subst w1. auto.
    + subst e1. left. destruct e2, w1; cbn in *; try reflexivity; try discriminate; destruct C; try discriminate.
    + subst w1. auto.
  - destruct B4 as [<-|W]; [|subst w1; auto]. left. destruct e1, e2, w1; cbn in *; try reflexivity; try discriminate; destruct C; discriminate.
Qed.
Lemma merge_together : forall f g, consistent f -> consistent g -> together (fun h => h = f \/ h = g) (flags_merge f g).
Proof.
  intros f g [FM FX] [GM GX]. split; [apply mk_flags_consistent|]. unfold flags_merge, mk_flags, allows. cbn [fl_e fl_m fl_x fl_c]. split.
  - destruct (merge_allows (fl_e f) (fl_e g)), (merge_allows (fl_c f) (fl_c g)), (width_allows _ _ _ _ FM GM), (width_allows _ _ _ _ FX GX).
    intros h [->| ->]; auto.
  - intros h [HM HX] U. destruct (U f (or_introl eq_refl)) as (A1 & A2 & A3 & A4), (U g (or_intror eq_refl)) as (B1 & B2 & B3 & B4).
    split; [apply merge_least; assumption|]. split; [eapply width_least; eassumption|]. split; [eapply width_least; eassumption|apply merge_least; assumption].
Qed.
Lemma allows_refl : forall f, allows f f.
Proof. intros f. unfold allows, bit_allows. auto. Qed.
Lemma bit_allows_trans : forall a b c, bit_allows a b -> bit_allows b c -> bit_allows a c.
Proof. unfold bit_allows. intros a b c [->| ->] [->| ->]; auto. Qed.
Lemma allows_trans : forall f g h, allows f g -> allows g h -> allows f h.
Proof. intros f g h (A1 & A2 & A3 & A4) (B1 & B2 & B3 & B4). split; [|split; [|split]]; eapply bit_allows_trans; eassumption. Qed.
Lemma bit_allows_antisym : forall a b, bit_allows a b -> bit_allows b a -> a = b.
Proof. unfold bit_allows. intros a b [->| ->] [H|H]; congruence. Qed.
Lemma together_fun : forall K f g, together K f -> together K g -> f = g.
Proof.
  intros K [e m x c] [e' m' x' c'] (C1 & U1 & L1) (C2 & U2 & L2). destruct (L1 _ C2 U2) as (A1 & A2 & A3 & A4), (L2 _ C1 U1) as (B1 & B2 & B3 & B4). cbn in *.
  f_equal; apply bit_allows_antisym; assumption.
Qed.
Lemma together_ext : forall K K' f, (forall g, K g <-> K' g) -> together K f -> together K' f.
Proof. intros K K' f E (C & U & L). split; [exact C|]. split; [intros g H; apply U, E, H|]. intros h H X. apply L; [exact H|]. intros g G. apply X, E, G. Qed.
Lemma together_one : forall f, consistent f -> together (fun h => h = f) f.
Proof. intros f C. split; [exact C|]. split; [intros g ->; apply allows_refl|]. intros h _ X. apply X. reflexivity. Qed.
(** What is together of parts is together of the whole. *)
Lemma together_parts : forall (K P : flags -> Prop) (R : flags -> (flags -> Prop) -> Prop) g,
  together P g -> (forall p, P p -> exists Q, R p Q) -> (forall p Q, R p Q -> P p /\ together Q p) -> (forall f, K f <-> exists p Q, R p Q /\ Q f) -> together K g.
Proof.
  intros K P R g (C & U & L) S T E. split; [exact C|]. split.
  - intros f F. apply E in F. destruct F as (p & Q & X & F). destruct (T p Q X) as [PP (_ & UP & _)]. eapply allows_trans; [apply U; exact PP|apply UP; exact F].
  - intros h H X. apply L; [exact H|]. intros p Y. destruct (S p Y) as [Q RQ]. destruct (T p Q RQ) as [_ (_ & _ & LP)]. apply LP; [exact H|]. intros f F. apply X, E. eauto.
Qed.

(** What a list of jumps leaves at an address. *)
Lemma puts_together : forall kvs t, sorted_keys t -> con_targets t -> (forall k f, In (k, f) kvs -> consistent f) ->
  sorted_keys (fold_left put kvs t) /\ con_targets (fold_left put kvs t) /\
  forall k, let K := fun f => In (k, f) t \/ In (k, f) kvs in
    match om_find k (fold_left put kvs t) with
    | Some g => (exists f, K f) /\ together K g
    | None => forall f, ~ K f
    end.
Proof.
  induction kvs as [|[j v] kvs IH]; intros t S C F; cbn [fold_left].
  - split; [exact S|]. split; [exact C|]. intros k. destruct (om_find k t) as [g|] eqn:E.
    + apply om_find_in in E. split; [exists g; left; exact E|]. eapply together_ext; [|apply together_one; eapply C; exact E]. intros h. cbn. split; [intros ->; left; exact E|].
      intros [X|[]]. apply (om_in_find _ _ _ _ S) in X. apply (om_in_find _ _ _ _ S) in E. congruence.
    + intros f [X|[]]. eapply om_find_none; eassumption.
  - assert (CV : consistent v) by (apply (F j); left; reflexivity).
    assert (S1 : sorted_keys (put t (j, v))) by (apply om_merge_sorted; exact S).
    assert (C1 : con_targets (put t (j, v))) by (apply put_con; [exact CV|exact C]).
    destruct (IH _ S1 C1) as (S2 & C2 & X); [intros k f I; apply (F k); right; exact I|]. split; [exact S2|]. split; [exact C2|]. intros k. specialize (X k). cbv zeta in X. set (K := fun f => In (k, f) t \/ In (k, f) ((j, v) :: kvs)).
    assert (Q : forall p, In (k, p) (put t (j, v)) <-> om_find k (put t (j, v)) = Some p) by (intros p; split; [apply om_in_find; exact S1|apply om_find_in]).
    assert (FK : om_find k (put t (j, v)) = if j =? k then Some (match om_find j t with Some old => flags_merge old v | None => v end) else om_find k t) by (apply om_find_merge; exact S).
    destruct (Z.eqb_spec j k) as [->|N].
    + set (p0 := match om_find k t with Some old => flags_merge old v | None => v end) in *.
      assert (T0 : together (fun f => In (k, f) t \/ f = v) p0).
      { unfold p0. destruct (om_find k t) as [old|] eqn:E.
        - apply om_find_in in E. eapply together_ext; [|apply merge_together; [eapply C; exact E|exact CV]]. intros g. cbn. split.
          + intros [->| ->]; auto.
          + intros [Y| ->]; [|auto]. left. apply (om_in_find _ _ _ _ S) in Y. apply (om_in_find _ _ _ _ S) in E. congruence.
        - eapply together_ext; [|apply together_one; exact CV]. intros g. cbn. split; [auto|]. intros [Y|Y]; [exfalso; eapply om_find_none; eassumption|exact Y]. }
      destruct (om_find k (fold_left put kvs (put t (k, v)))) as [g|].
      * destruct X as [_ X]. split; [exists v; right; left; reflexivity|].
        apply (together_parts K (fun f => In (k, f) (put t (k, v)) \/ In (k, f) kvs)
                 (fun p Q => (p = p0 /\ Q = (fun f => In (k, f) t \/ f = v)) \/ (In (k, p) kvs /\ Q = (fun f => f = p))) g X).
        -- intros p [P|P]; [|eexists; right; split; [exact P|reflexivity]]. apply Q in P. rewrite FK in P. injection P as <-. eexists. left. split; reflexivity.
        -- intros p Q' [(-> & ->)|(I & ->)]; [split; [left; apply Q; exact FK|exact T0]|]. split; [right; exact I|]. apply together_one. apply (F k). right. exact I.
        -- intros f. unfold K. cbn [In]. split.
           ++ intros [I|[I|I]]; [| |exists f, (fun h => h = f); auto]; (eexists p0, _; split; [left; split; reflexivity|]); [left; exact I|right; congruence].
           ++ intros (p & Q' & [(-> & ->)|(I & ->)] & H); [destruct H as [H| ->]; auto|subst f; auto].
      * exfalso. apply (X p0). left. apply Q. exact FK.
    + assert (E : forall f, (In (k, f) (put t (j, v)) \/ In (k, f) kvs) <-> K f).
      { intros f. unfold K. rewrite Q, FK. cbn [In]. split.
        - intros [Y|Y]; [left; apply om_find_in; exact Y|auto].
        - intros [Y|[Y|Y]]; [left; apply om_in_find; assumption|congruence|auto]. }
      destruct (om_find k (fold_left put kvs (put t (j, v)))) as [g|].
      * destruct X as [(f & X1) X2]. split; [exists f; apply E; exact X1|]. eapply together_ext; [exact E|exact X2].
      * intros f Y. apply (X f). apply E. exact Y.
Qed.

(** ** The jump targets. *)
Lemma targets_told : forall fuel sk files ws a, assemble fuel sk files = (ws, Ok a) ->
  sorted_keys (jump_targets a) /\
  forall t g, In (t, g) (jump_targets a) <->
    ~ In t (flat_map touched ws) /\ (exists m l f, In m (as_mods a) /\ In l (md_lines m) /\ tells_target a m l t f) /\
    together (fun f => exists m l, In m (as_mods a) /\ In l (md_lines m) /\ tells_target a m l t f) g.
Proof.
  intros fuel sk files ws a H. pose proof (all_made _ _ _ _ _ H) as MD. destruct (program_spec _ _ _ _ _ H) as (_ & _ & _ & _ & _ & _ & _ & _ & _ & _ & _ & _ & OWN).
  assert (EACH : forall m, In m (as_mods a) -> exists kvs, md_targets m = fold_left put kvs [] /\ (forall t f, In (t, f) kvs <-> exists l, In l (md_lines m) /\ tells_target a m l t f) /\
            con_targets (md_targets m) /\ (forall k f, In (k, f) kvs -> consistent f)).
  { intros m I. destruct (Forall2_in_r _ _ _ _ _ _ MD I) as [file M]. destruct (module_report _ _ _ _ M) as ((kvs & T & K) & _ & _ & _ & C & CM). exists kvs. split; [exact T|]. split; [exact K|]. split; [exact C|].
    intros k f IN. apply K in IN. destruct IN as (l & L & X). unfold con_module in CM. rewrite Forall_forall in CM. destruct (CM l L) as [CS CI].
    unfold tells_target in X. destruct (ln_stmt l) as [i|d]; destruct X as [-> _]; [apply CI|exact CS]. }
  rewrite targets_puts. set (told := filter (fun kv => negb (assembler_contains a (fst kv))) (flat_map md_targets (as_mods a))).
  assert (IT : forall t p, In (t, p) told <-> ~ In t (flat_map touched ws) /\ exists m, In m (as_mods a) /\ In (t, p) (md_targets m)).
  { intros t p. unfold told. rewrite filter_In, in_flat_map. cbn [fst]. rewrite negb_true_iff. specialize (OWN t).
    split; intros [X Y]; split; try assumption.
    - intros Z. apply OWN in Z. congruence.
    - destruct (assembler_contains a t); [destruct X; apply OWN; reflexivity|reflexivity]. }
  destruct (puts_together told [] Logic.I) as (SO & CO & FI); [intros k f []|intros k f I; apply IT in I; destruct I as (_ & m & M & I); destruct (EACH m M) as (_ & _ & _ & C & _); eapply C; exact I|].
  split; [exact SO|]. intros t g.
  assert (Q : In (t, g) (fold_left put told []) <-> om_find t (fold_left put told []) = Some g) by (split; [apply om_in_find; exact SO|apply om_find_in]).
  rewrite Q. specialize (FI t). cbv zeta in FI.
  (* each module *)
  assert (MT : forall m, In m (as_mods a) -> (forall p, In (t, p) (md_targets m) -> together (fun f => exists l, In l (md_lines m) /\ tells_target a m l t f) p) /\
     (forall l f, In l (md_lines m) -> tells_target a m l t f -> exists p, In (t, p) (md_targets m))).
  { intros m M. destruct (EACH m M) as (kvs & T & K & C & CK). destruct (puts_together kvs [] Logic.I) as (S1 & _ & X); [intros k f []|exact CK|]. specialize (X t). cbv zeta in X. rewrite T. split.
    - intros p P. apply (om_in_find _ _ _ _ S1) in P. rewrite P in X. destruct X as [_ X]. eapply together_ext; [|exact X]. intros f. cbn. rewrite K. tauto.
    - intros l f L F. destruct (om_find t (fold_left put kvs [])) as [p|] eqn:E; [exists p; apply om_find_in; exact E|]. exfalso. apply (X f). right. apply K. eauto. }
  assert (TG : ~ In t (flat_map touched ws) -> forall g, together (fun f => In (t, f) [] \/ In (t, f) told) g -> together (fun f => exists m l, In m (as_mods a) /\ In l (md_lines m) /\ tells_target a m l t f) g).
  { intros NO h X. apply (together_parts _ _ (fun p Q => exists m, In m (as_mods a) /\ In (t, p) (md_targets m) /\ Q = (fun f => exists l, In l (md_lines m) /\ tells_target a m l t f)) _ X).
    - intros p [[]|P]. apply IT in P. destruct P as (_ & m & M & P). eexists _, m. split; [exact M|]. split; [exact P|reflexivity].
    - intros p Q' (m & M & P & ->). split; [right; apply IT; eauto|]. apply (MT m M). exact P.
    - intros f. split.
      + intros (m & l & M & L & F). destruct (proj2 (MT m M) l f L F) as [p P]. eexists p, _. split; [exists m; split; [exact M|split; [exact P|reflexivity]]|]. exists l. split; [exact L|exact F].
      + intros (p & Q' & (m & M & P & ->) & l & L & F). exists m, l. auto. }
  split.
  - intros E. rewrite E in FI. destruct FI as [(f & [[]|F]) X]. pose proof (proj1 (IT t f) F) as (NO & m & M & P). split; [exact NO|]. split; [|apply TG; assumption].
    destruct (EACH m M) as (kvs & T & K & C & CK). destruct (puts_together kvs [] Logic.I) as (S1 & _ & Y); [intros k f' []|exact CK|]. specialize (Y t). cbv zeta in Y. rewrite T in P.
    apply (om_in_find _ _ _ _ S1) in P. rewrite P in Y. destruct Y as [(f' & [[]|F']) _]. apply K in F'. destruct F' as (l & L & F'). exists m, l, f'. auto.
  - intros (NO & (m & l & f & M & L & F) & TO). destruct (proj2 (MT m M) l f L F) as [p P].
    destruct (om_find t (fold_left put told [])) as [h|].
    + f_equal. destruct FI as [_ X]. exact (together_fun _ _ _ (TG NO _ X) TO).
    + exfalso. apply (FI p). right. apply IT. split; [exact NO|]. exists m. auto.
Qed.

(** ** Conventions and names. *)
Lemma told_exact : forall A (get : module -> option A) ms v, first_told get ms = Some v <->
  exists i m, nth_error ms i = Some m /\ get m = Some v /\ forall j m', (j < i)%nat -> nth_error ms j = Some m' -> get m' = None.
Proof.
  intros A get. induction ms as [|m ms IH]; intros v; cbn [first_told].
  - split; [discriminate|]. intros (i & m & X & _). destruct i; discriminate X.
  - destruct (get m) as [w|] eqn:G.
    + split.
      * intros X. injection X as <-. exists 0%nat, m. split; [reflexivity|]. split; [exact G|]. intros j m' J. lia.
      * intros (i & m' & X & Y & Z). destruct i as [|i]; [injection X as <-; congruence|]. rewrite (Z 0%nat m) in G; [discriminate G|lia|reflexivity].
    + rewrite IH. split.
      * intros (i & m' & X & Y & Z). exists (Datatypes.S i), m'. split; [exact X|]. split; [exact Y|]. intros [|j] m2 J E; [injection E as <-; exact G|apply (Z j); [lia|exact E]].
      * intros (i & m' & X & Y & Z). destruct i as [|i]; [injection X as <-; congruence|]. exists i, m'. split; [exact X|]. split; [exact Y|]. intros j m2 J E. apply (Z (Datatypes.S j)); [lia|exact E].
Qed.
Lemma told_none : forall A (get : module -> option A) ms, first_told get ms = None <-> forall m, In m ms -> get m = None.
Proof.
  intros A get. induction ms as [|m ms IH]; cbn [first_told]; [split; [intros _ m []|reflexivity]|]. destruct (get m) eqn:G.
  - split; [discriminate|]. intros H. rewrite (H m) in G; [discriminate G|left; reflexivity].
  - rewrite IH. split; [intros H m' [<-|I]; auto|]. intros H m' I. apply H. right. exact I.
Qed.
Lemma returns_told : forall fuel sk files ws a, assemble fuel sk files = (ws, Ok a) ->
  sorted_keys (jump_target_return_conventions a) /\
  forall t r, In (t, r) (jump_target_return_conventions a) <->
    exists i m, nth_error (as_mods a) i = Some m /\ module_returns a m t r /\
      forall j m' r', (j < i)%nat -> nth_error (as_mods a) j = Some m' -> ~ module_returns a m' t r'.
Proof.
  intros fuel sk files ws a H. pose proof (all_made _ _ _ _ _ H) as MD. destruct (conventions_first a 0) as [_ SO]. split; [exact SO|]. intros t r.
  assert (Q : In (t, r) (jump_target_return_conventions a) <-> om_find t (jump_target_return_conventions a) = Some r) by (split; [apply om_in_find; exact SO|apply om_find_in]).
  rewrite Q, (proj1 (conventions_first a t)), told_exact.
  assert (E : forall i m r, nth_error (as_mods a) i = Some m -> om_find t (md_rets m) = Some r <-> module_returns a m t r).
  { intros i m r' I. apply nth_error_In in I. destruct (Forall2_in_r _ _ _ _ _ _ MD I) as [file M]. destruct (module_report _ _ _ _ M) as (_ & (_ & X) & _). apply X. }
  split; intros (i & m & X & Y & Z); exists i, m; (split; [exact X|]); (split; [apply (E _ _ _ X); exact Y|]).
  - intros j m' r' J N R. apply (E _ _ _ N) in R. rewrite (Z j m' J N) in R. discriminate R.
  - intros j m' J N. destruct (om_find t (md_rets m')) as [r'|] eqn:F; [|reflexivity]. apply (E _ _ _ N) in F. exfalso. exact (Z j m' r' J N F).
Qed.
Lemma files_made : forall fuel a files ms i m, Forall2 (made fuel a) files ms -> nth_error ms i = Some m -> exists file, nth_error files i = Some file /\ made fuel a file m.
Proof.
  intros fuel a files ms i m F. revert i. induction F as [|f m' files ms H F IH]; intros [|i] E; try discriminate E; [injection E as <-; exists f; auto|apply IH; exact E].
Qed.
Lemma names_told : forall fuel sk files ws a x, assemble fuel sk files = (ws, Ok a) ->
  (forall id, assembler_name_for_address (as_mods a) x = Some id ->
     exists i file m n, nth_error files i = Some file /\ nth_error (as_mods a) i = Some m /\ md_name m <> "" /\ id = FullId (Some (md_name m)) n /\ names_place file m n x /\
       forall j file' m' n', (j < i)%nat -> nth_error files j = Some file' -> nth_error (as_mods a) j = Some m' -> md_name m' <> "" -> ~ names_place file' m' n' x) /\
  (assembler_name_for_address (as_mods a) x = None ->
     forall i file m n, nth_error files i = Some file -> nth_error (as_mods a) i = Some m -> md_name m <> "" -> ~ names_place file m n x).
Proof.
  intros fuel sk files ws a x H. pose proof (all_made _ _ _ _ _ H) as MD. rewrite names_first.
  assert (NO : forall i file m n, nth_error files i = Some file -> nth_error (as_mods a) i = Some m -> md_name m <> "" -> name_for_address m x = None -> ~ names_place file m n x).
  { intros i file m n F M NE N. destruct (files_made _ _ _ _ _ _ MD M) as (file' & F' & MM). assert (file' = file) as -> by congruence.
    destruct (module_report _ _ _ _ MM) as (_ & _ & _ & X & _). apply name_none in N. destruct N as [N|N]; [contradiction|]. apply X. exact N. }
  split.
  - intros id T. apply told_exact in T. destruct T as (i & m & M & G & E). destruct (files_made _ _ _ _ _ _ MD M) as (file & F & MM).
    destruct (module_report _ _ _ _ MM) as (_ & _ & X & _). unfold name_for_address in G. destruct (String.eqb_spec (md_name m) "") as [|NE]; [discriminate G|].
    destruct (assoc_z x (md_addr_names m)) as [n|] eqn:A; [|discriminate G]. injection G as <-. exists i, file, m, n. split; [exact F|]. split; [exact M|]. split; [exact NE|]. split; [reflexivity|].
    split; [apply X; exact A|]. intros j file' m' n' J F' M' NE'. apply (NO j file' m' n' F' M' NE'). apply (E j m' J M').
  - intros T i file m n F M NE. apply (NO i file m n F M NE). apply (proj1 (told_none _ _ _) T). eapply nth_error_In. exact M.
Qed.

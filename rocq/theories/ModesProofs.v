(** The modes an assembler works with are consistent ones, so that merging them is associative. *)
From Coq Require Import Permutation.
From Verif Require Import Base BaseProofs ModelNumeric ModelAddress ModelExpr ModelMnemonic ModelAMode ModelOpcode ModelState ModelInstr ModelToken
  ModelStatement ModelParse ModelMap ModelRanges ModelModule ModelAssembler SpecState SpecScope SpecRanges SpecLayout SpecAssemble SpecSafe
  MapProofs RangesProofs StateProofs DisStateProofs OrderProofs LoadProofs ScopeProofs PassProofs LayoutProofs AssembleProofs ProgramProofs TermProofs
  SafeProofs SafeRunProofs SafeAssembleProofs SafeProgramProofs.
Open Scope string_scope.
Open Scope list_scope.
Open Scope Z_scope.

Definition con_stmt (s : statement) : Prop :=
  match s with SInstr i => rc_consistent (i_ret i) | SDir d => consistent (d_flags d) end.

(** ** Modes read from source text. *)
Lemma name_con : forall s f, flags_from_name s = Some f -> consistent f.
Proof.
  intros s f H. unfold flags_from_name in H.
  destruct (String.eqb (str_lower s) "unk"); [injection H as <-; apply mk_flags_consistent|].
  destruct (String.eqb (str_lower s) "emu"); [injection H as <-; apply mk_flags_consistent|].
  destruct (String.eqb (str_lower s) "native"); [injection H as <-; apply mk_flags_consistent|].
  destruct (String.eqb (str_lower s) ""); [discriminate H|].
  destruct (optional_part "m" (str_lower s)) as [[m s1]|] eqn:M; [|discriminate H].
  destruct (optional_part "x" s1) as [[x s2]|] eqn:X; [|discriminate H].
  destruct (negb (String.eqb s2 "")); [discriminate H|]. injection H as <-. apply mk_flags_consistent.
Qed.
Lemma default_con : consistent default_flags.
Proof. split; cbn; auto. Qed.
Lemma mode_con : forall ts f ts', p_mode ts = Ok (f, ts') -> consistent f.
Proof.
  intros [|[] ts] f ts' H; try discriminate H. unfold p_mode in H.
  match type of H with match ?x with _ => _ end = _ => destruct x eqn:N; [|discriminate H] end.
  injection H as <- _. eapply name_con. exact N.
Qed.
Definition con_ret (r : retconv) : Prop := rc_consistent r.
Lemma return_con : forall ts r ts', parse_return_convention ts = Ok (r, ts') -> con_ret r.
Proof.
  intros ts r ts' H. unfold parse_return_convention in H. bok H as t T. destruct (is_punct P_noreturn t); [injection H as <- _; exact I|].
  destruct (is_punct P_yields t); [|injection H as <- _; exact I]. bok H as p E. destruct p as [f ts1]. injection H as <- _.
  eapply mode_con. exact E.
Qed.
Lemma instruction_con : forall ts i ts', parse_instruction ts = Ok (i, ts') -> con_stmt (SInstr i).
Proof.
  intros ts i ts' H. unfold parse_instruction in H. bok H as p E. destruct p as [i0 ts1]. bok H as q F. destruct q as [rc ts2].
  destruct (_ && _); [discriminate H|]. injection H as <- _. cbn. apply return_con in F. exact F.
Qed.
Lemma directive_con : forall ts d ts', parse_directive ts = Ok (d, ts') -> con_stmt (SDir d).
Proof.
  intros [|[id|z ty|n|sx|d0|p|] ts] dd ts' H; try discriminate H. unfold parse_directive in H. cbv zeta in H.
  assert (MP : forall dt d0 arg ts dd ts', (let* (f, ts0) := p_mode ts in
                  let* _ := match dt with DT_flag_arg => confirm_at_end ts0 | _ => Ok tt end in
                  let* (rc, ts1) := parse_return_convention ts0 in
                  let* _ := confirm_at_end ts1 in Ok (Directive d0 arg f rc [], ts1)) = Ok (dd, ts') -> con_stmt (SDir dd)).
  { clear. intros dt d0 arg ts dd ts' H. bok H as p E. destruct p as [f ts1]. bok H as u U. bok H as q F. destruct q as [rc ts2]. bok H as w W.
    injection H as <- _. cbn. eapply mode_con. exact E. }
  destruct (directive_type_by_name d0) eqn:DT.
  - bok H as u U. injection H as <- _. exact default_con.
  - bok H as p E. destruct p as [e ts1]. cbn in H. bok H as u U. injection H as <- _. exact default_con.
  - bok H as p E. destruct p as [e ts1]. destruct (requires_lookup e); [discriminate H|]. bok H as u U. injection H as <- _. exact default_con.
  - exact (MP DT_flag_arg _ _ _ _ _ H).
  - exact (MP DT_calling_convention_arg _ _ _ _ _ H).
  - bok H as p E. destruct p as [l ts1]. injection H as <- _. exact default_con.
  - bok H as p E. destruct p as [e ts1]. destruct (simple_identifier e); [|discriminate H]. bok H as u U. injection H as <- _. exact default_con.
  - bok H as p E. destruct p as [e ts1]. exact (MP DT_remote_arg _ _ _ _ _ H).
Qed.
Definition con_parsed (p : parsed) : Prop := match p with PStmt s => con_stmt s | _ => True end.
Lemma loop_con : forall f acc ts l, parse_loop f acc ts = Ok l -> Forall con_parsed acc -> Forall con_parsed l.
Proof.
  induction f as [|f IH]; intros acc ts l H F; [discriminate H|]. cbn [parse_loop] in H.
  destruct ts as [|t0 ts0]; [injection H as <-; exact F|]. set (ts := t0 :: ts0) in *. clearbody ts.
  bok H as p E. destruct p as [[lab ts1] cont].
  assert (FL : Forall con_parsed (acc ++ lab)).
  { apply Forall_app. split; [exact F|]. unfold p_label in E. bok E as t T. bok E as q Q. destruct q as [ex ts2].
    destruct ts2 as [|[] ts3]; try (injection E as <- _ _; constructor; fail).
    destruct ts3 as [|t' ts4]; [injection E as <- _ _; constructor; [exact Logic.I|constructor]|].
    destruct (is_char ":" t'); injection E as <- _ _; (constructor; [exact Logic.I|constructor]). }
  destruct cont; [eapply IH; [exact H|exact FL]|]. bok H as t T. destruct (tok_at_end t); [injection H as <-; exact FL|].
  destruct (is_char "{" t || is_char "}" t).
  { eapply IH; [exact H|]. apply Forall_app. split; [exact FL|]. constructor; [exact default_con|constructor]. }
  destruct (tok_dir t).
  - bok H as q Q. destruct q as [d1 ts2]. bok H as b B. destruct b; [|discriminate H]. eapply IH; [exact H|].
    apply Forall_app. split; [exact FL|]. constructor; [eapply directive_con; exact Q|constructor].
  - destruct (tok_mnem t); [|discriminate H]. bok H as q Q. destruct q as [i1 ts2]. bok H as b B. destruct b; [|discriminate H].
    eapply IH; [exact H|]. apply Forall_app. split; [exact FL|]. constructor; [eapply instruction_con; exact Q|constructor].
Qed.
Lemma source_con : forall files s, in_source files s -> con_stmt s.
Proof.
  intros files s (file & src & labels & _ & (ess & R & ->) & H).
  assert (P : Forall con_parsed (concat ess)).
  { clear H. induction R as [|line es file ess (ts & T & P) R IH]; [constructor|]. cbn. apply Forall_app. split; [|exact IH].
    eapply loop_con; [exact P|constructor]. }
  clear R. revert H P. generalize (concat ess) as l, (@nil (string * bool)) as pending. clear.
  induction l as [|[n x|s'] l IH]; intros pending H P; cbn in H; [destruct H| |]; inversion P; subst.
  - eapply IH; eassumption.
  - destruct H as [H|H]; [injection H as <- <-; assumption|eapply IH; eassumption].
Qed.

(** ** The first pass. *)
Definition con_line (l : line) : Prop := con_stmt (ln_stmt l) /\ es_consistent (ln_in l).
Definition con_states (st : omap estate) : Prop := forall k s, In (k, s) st -> es_consistent s.
Lemma in_om_set : forall A k v (m : omap A) j w, In (j, w) (om_set k v m) -> (j = k /\ w = v) \/ In (j, w) m.
Proof.
  intros A k v m j w. induction m as [|[i x] m IH]; cbn [om_set]; [intros [E|[]]; injection E as <- <-; auto|].
  destruct (i <? k); [intros [E|H]; [right; left; exact E|destruct (IH H); [auto|right; right; assumption]]|].
  destruct (i =? k); (intros [E|H]; [injection E as <- <-; auto|]); [right; right; exact H|right; exact H].
Qed.
Lemma add_con : forall k s st, es_consistent s -> con_states st -> con_states (add_state k s st).
Proof.
  intros k s st C H j w I. unfold add_state, om_merge in I. destruct (om_find k st); apply in_om_set in I; destruct I as [[_ ->]|I]; eauto. apply es_merge_consistent.
Qed.
Lemma flags_con : forall f, consistent f -> es_consistent (estate_of_flags f).
Proof. intros f C. split; [|intros v []]. cbn [es_flags estate_of_flags]. apply produced_iff. apply pr_in. apply produced_iff. exact C. Qed.
Lemma entries_con : forall ls i st, Forall con_line ls -> con_states st -> con_states (entry_states i ls st).
Proof.
  induction ls as [|l ls IH]; intros i st F C; cbn [entry_states]; [exact C|]. inversion F as [|? ? [S _] F']; subst. apply IH; [exact F'|].
  destruct (ln_stmt l) as [x|d]; [exact C|]. destruct (d_name d); try exact C. apply add_con; [apply flags_con; exact S|exact C].
Qed.
Lemma carry_con : forall b s, es_consistent s -> es_consistent (upd_flags (set_c b) s).
Proof. intros b s G. exact G. Qed.
Lemma stmt_con : forall s a b, stmt_execute s a = Ok b -> con_stmt s -> es_consistent a -> es_consistent b.
Proof.
  intros [i|d] a b H C E; cbn [stmt_execute con_stmt] in *; [eapply execute_consistent; eassumption|].
  unfold directive_execute in H. destruct (d_name d); try discriminate H; injection H as <-; try exact E. apply con_wf; assumption.
Qed.
Lemma branch_con : forall i a b, execute_branch i a = Ok b -> con_stmt (SInstr i) -> es_consistent a -> es_consistent b.
Proof.
  intros i a b H C E. unfold execute_branch in H. bok H as s S. injection H as <-. assert (G : es_consistent s) by (eapply execute_consistent; eassumption).
  destruct (i_mnem i); first [exact G | apply carry_con; exact G].
Qed.
Lemma zset_Forall : forall A (P : A -> Prop) k x l, P x -> Forall P l -> Forall P (zset k x l).
Proof.
  intros A P k x l X F. unfold zset. destruct (k <? 0); [exact F|]. generalize (Z.to_nat k). induction F as [|y l Y F IH]; intros [|n]; cbn; constructor; auto.
Qed.
Lemma step_con : forall m ls st ls' st', first_pass_step m ls st = Ok (ls', st') -> Forall con_line ls -> con_states st -> Forall con_line ls' /\ con_states st'.
Proof.
  intros m ls [|[k cur] rest] ls' st' H F C; unfold first_pass_step in H; [injection H as <- <-; auto|].
  destruct (k =? zlen ls); [discriminate|]. destruct (znth ls k) as [l|] eqn:L; [|discriminate].
  assert (CR : con_states rest) by (intros j s I; apply (C j); right; exact I).
  assert (CC : es_consistent cur) by (apply (C k); left; reflexivity).
  destruct (ln_reached l && es_eqb (ln_in l) cur); [injection H as <- <-; auto|].
  assert (CL : con_stmt (ln_stmt l)). { rewrite Forall_forall in F. apply (F l). eapply znth_in. exact L. }
  assert (Z0 : Forall con_line (zset k (ln_visit cur l) ls)) by (apply zset_Forall; [split; [exact CL|exact CC]|exact F]).
  bok H as next E. pose proof (stmt_con _ _ _ E CL CC) as CN.
  assert (C1 : con_states (if stmt_is_exit (ln_stmt l) then (k, cur) :: rest else add_state (k + 1) next ((k, cur) :: rest))).
  { destruct (stmt_is_exit (ln_stmt l)); [exact C|apply add_con; assumption]. }
  destruct (ln_stmt l) as [i|d]; [|injection H as <- <-; auto].
  destruct (is_local_branch i); [|injection H as <- <-; auto].
  destruct (simple_identifier_opt (i_arg1 i)); [|discriminate].
  destruct (local_index m s (ln_scopes l)) as [idx|e|u|]; [|discriminate H..]. bok H as n2 E2. injection H as <- <-. split; [exact Z0|].
  apply add_con; [eapply branch_con; eassumption|exact C1].
Qed.
Lemma first_con : forall fuel m ls st ls', first_pass_loop fuel m ls st = Ok ls' -> Forall con_line ls -> con_states st -> Forall con_line ls'.
Proof.
  induction fuel as [|f IH]; intros m ls [|p st] ls' H F C; cbn [first_pass_loop] in H; try (injection H as <-; exact F); [discriminate|].
  bok H as q E. destruct q as [ls1 st1]. destruct (step_con _ _ _ _ _ E F C). eapply IH; eassumption.
Qed.
Lemma fix_con : forall ls ls', fix_modes ls = Ok ls' -> Forall con_line ls -> Forall con_line ls'.
Proof.
  intros ls ls' H F. apply fix_modes_spec in H. induction H as [|l l' ls ls' R H IH]; [constructor|]. inversion F as [|? ? [S C] F']; subst. constructor; [|apply IH; exact F'].
  unfold resolves_to in R. destruct (ln_stmt l) as [i|d] eqn:E; [|subst l'; split; [rewrite E; exact S|exact C]]. destruct R as (_ & i' & X & ->). split; [|exact C].
  cbn [ln_stmt ln_with_stmt con_stmt] in *. unfold fix_addressing_mode in X.
  destruct (i_mode i); try (injection X as <-; exact S); [destruct (fl_m _)|destruct (fl_x _)]; try discriminate X; injection X as <-; exact S.
Qed.
Definition coded (l : line) : statement * estate := (ln_stmt l, ln_in l).
Lemma coded_con : forall ls ls', map coded ls = map coded ls' -> Forall con_line ls -> Forall con_line ls'.
Proof.
  induction ls as [|l ls IH]; intros [|l' ls'] E F; try discriminate E; constructor; unfold coded in E; cbn [map] in E; injection E as E1 E2 E3; inversion F as [|? ? [S C] F']; subst.
  - split; [rewrite <- E1; exact S|rewrite <- E2; exact C].
  - apply IH; assumption.
Qed.
Lemma layout_coded : forall ls pc ls', layout pc ls = Ok ls' -> map coded ls' = map coded ls.
Proof.
  induction ls as [|l ls IH]; intros pc ls' H; cbn [layout] in H; [injection H as <-; reflexivity|].
  bok H as pc' P. destruct pc' as [a|].
  - bok H as rest R. injection H as <-. cbn [map]. f_equal; [|eapply IH; exact R]. destruct (stmt_is_dir D_equ (ln_stmt l)); reflexivity.
  - destruct (0 <? stmt_size (ln_stmt l)); [discriminate H|]. bok H as rest R. injection H as <-. cbn [map]. f_equal. eapply IH. exact R.
Qed.
Definition con_module (m : module) : Prop := Forall con_line (md_lines m).
Lemma run_first_con : forall fuel m m', run_first_pass fuel m = Ok m' -> con_module m -> con_module m' /\ md_targets m' = md_targets m.
Proof.
  intros fuel m m' H C. unfold run_first_pass in H. bok H as l1 L1. bok H as l2 L2. bok H as l3 L3. injection H as <-. split; [|reflexivity].
  eapply coded_con; [symmetry; eapply layout_coded; exact L3|]. eapply fix_con; [exact L2|]. eapply first_con; [exact L1|exact C|].
  apply entries_con; [exact C|intros k s []].
Qed.
Lemma grows_con : forall m m', grows m m' -> con_module m -> con_module m'.
Proof.
  intros m m' (_ & _ & _ & _ & _ & _ & _ & F) C. unfold con_module in *. induction F as [|l l' ls ls' G F IH]; [constructor|]. inversion C as [|? ? [S E] C']; subst.
  constructor; [|apply IH; exact C']. destruct G as [->|(_ & _ & v & ->)]; split; assumption.
Qed.

(** ** The jump targets. *)
Definition con_targets (t : omap flags) : Prop := forall k f, In (k, f) t -> consistent f.
Lemma target_con : forall k f t, consistent f -> con_targets t -> con_targets (om_merge flags_merge k f t).
Proof.
  intros k f t C H j w I. unfold om_merge in I. destruct (om_find k t); apply in_om_set in I; destruct I as [[_ ->]|I]; eauto. apply mk_flags_consistent.
Qed.
Lemma far_con : forall l i m m', record_far_target l i m = Ok m' -> es_consistent (ln_in l) -> con_targets (md_targets m) -> con_targets (md_targets m').
Proof.
  intros l i m m' H C T. unfold record_far_target in H. destruct (ln_value l); [|discriminate H]. bok H as a A. bok H as t B. destruct t; injection H as <-; [|exact T].
  cbn [md_targets md_with_targets]. apply target_con; [apply C|exact T].
Qed.
Lemma stmt_targets : forall sk ext l ws m ws' m', assemble_stmt sk ext l ws m = (ws', Ok m') -> con_stmt (ln_stmt l) -> con_targets (md_targets m) -> con_targets (md_targets m').
Proof.
  intros sk ext l ws m ws' m' H C T. unfold assemble_stmt in H. cbv zeta in H. destruct (0 <? stmt_size (ln_stmt l)).
  - destruct (ln_value l); [|discriminate H]. apply wbind_ok in H. destruct H as (w1 & a & _ & H). apply wbind_ok in H. destruct H as (w2 & u & _ & H).
    apply wbind_ok in H. destruct H as (w3 & [[] o] & _ & H); [injection H as _ <-; exact T|discriminate H].
  - destruct (ln_stmt l) as [i|d]; [injection H as _ <-; exact T|].
    destruct (d_name d); try (injection H as _ <-; exact T).
    + destruct (ln_value l); [|discriminate H]. injection H as _ H. bok H as a A. injection H as <-. destruct (rc_is_default (d_ret d)); exact T.
    + injection H as _ H. bok H as v V. bok H as a A. injection H as <-.
      destruct (rc_is_default (d_ret d)); cbn [md_targets md_with_targets md_with_rets]; (apply target_con; [exact C|exact T]).
Qed.
Lemma lines_targets : forall sk ext ls ws m ws' m', assemble_lines sk ext ls ws m = (ws', Ok m') -> Forall con_line ls -> con_targets (md_targets m) -> con_targets (md_targets m').
Proof.
  intros sk ext ls. induction ls as [|l ls IH]; intros ws m ws' m' H F T; cbn [assemble_lines] in H; [injection H as _ <-; exact T|].
  inversion F as [|? ? [S C] F']; subst. apply wbind_ok in H. destruct H as (w1 & m1 & A & H). apply wbind_ok in H. destruct H as (w2 & m2 & B & H).
  eapply IH; [exact H|exact F'|]. apply stmt_targets in A; [|exact S|exact T]. injection B as _ B. destruct (ln_stmt l); [eapply far_con; eassumption|injection B as <-; exact A].
Qed.
Lemma module_targets : forall sk ext ws m ws' m', module_assemble sk ext ws m = (ws', Ok m') -> con_module m -> con_targets (md_targets m) -> con_targets (md_targets m').
Proof.
  intros sk ext ws m ws' m' H C T. unfold module_assemble in H. apply wbind_ok in H. destruct H as (w1 & m1 & A & H).
  apply lines_targets in A; [|exact C|exact T]. injection H as _ H. bok H as n N. injection H as <-. exact A.
Qed.

(** ** Merging in another order. *)
(** What a list of targets leaves at an address. *)
Definition put (t : omap flags) (kv : Z * flags) : omap flags := om_merge flags_merge (fst kv) (snd kv) t.
Lemma put_con : forall t kv, consistent (snd kv) -> con_targets t -> con_targets (put t kv).
Proof. intros t kv C H. apply target_con; assumption. Qed.
Lemma put_swap : forall t a b, sorted_keys t -> con_targets t -> consistent (snd a) -> consistent (snd b) -> put (put t a) b = put (put t b) a.
Proof.
  intros t [i f] [j g] S T CF CG. cbn [snd] in *. unfold put. cbn [fst snd]. apply sorted_ext; [apply om_merge_sorted; apply om_merge_sorted; exact S..|].
  intros k. rewrite !om_find_merge by (first [exact S|apply om_merge_sorted; exact S]).
  destruct (Z.eqb_spec i j) as [->|N].
  - rewrite !Z.eqb_refl. destruct (j =? k); [|reflexivity]. f_equal. destruct (om_find j t) as [o|] eqn:O.
    + assert (CO : consistent o) by (apply (T j); apply om_find_in; exact O). rewrite !flags_merge_assoc by assumption. f_equal. apply flags_merge_comm.
    + apply flags_merge_comm.
  - destruct (Z.eqb_spec i j) as [E|_]; [contradiction|]. destruct (Z.eqb_spec j i) as [E|_]; [congruence|].
    destruct (Z.eqb_spec j k) as [<-|N1].
    + destruct (Z.eqb_spec i j); [contradiction|]. reflexivity.
    + reflexivity.
Qed.
Lemma puts_perm : forall l l', Permutation l l' -> (forall kv, In kv l -> consistent (snd kv)) -> forall t, sorted_keys t -> con_targets t -> fold_left put l t = fold_left put l' t.
Proof.
  intros l l' P. induction P as [|x l l' P IH|x y l|l l' l'' P1 IH1 P2 IH2]; intros C t S T; cbn [fold_left].
  - reflexivity.
  - apply IH; [intros kv I; apply C; right; exact I|apply om_merge_sorted; exact S|apply put_con; [apply C; left; reflexivity|exact T]].
  - rewrite put_swap; auto; apply C; cbn; auto.
  - rewrite IH1 by assumption. apply IH2; [|exact S|exact T]. intros kv I. apply C. eapply Permutation_in; [apply Permutation_sym; exact P1|exact I].
Qed.
Lemma targets_puts : forall a, jump_targets a = fold_left put (filter (fun kv => negb (assembler_contains a (fst kv))) (flat_map md_targets (as_mods a))) [].
Proof.
  intros a. unfold jump_targets. generalize (@nil (Z * flags)) as t. induction (as_mods a) as [|m ms IH]; intros t; cbn [fold_left flat_map]; [reflexivity|].
  rewrite IH, filter_app, fold_left_app. f_equal. clear IH. revert t. induction (md_targets m) as [|kv l IH]; intros t; cbn [fold_left filter]; [reflexivity|].
  destruct (assembler_contains a (fst kv)); cbn [negb fold_left]; apply IH.
Qed.
Lemma filter_perm : forall A (p : A -> bool) l l', Permutation l l' -> Permutation (filter p l) (filter p l').
Proof.
  intros A p l l' P. induction P as [|x l l' P IH|x y l|l l' l'' P1 IH1 P2 IH2]; cbn [filter]; [constructor| | |eapply Permutation_trans; eassumption].
  - destruct (p x); [constructor; exact IH|exact IH].
  - destruct (p x), (p y); try apply perm_swap; apply Permutation_refl.
Qed.
Lemma targets_perm : forall a a', Permutation (as_mods a) (as_mods a') -> (forall x, assembler_contains a' x = assembler_contains a x) ->
  Forall (fun m => con_targets (md_targets m)) (as_mods a) -> jump_targets a' = jump_targets a.
Proof.
  intros a a' P C T. rewrite !targets_puts. rewrite (filter_ext _ (fun kv => negb (assembler_contains a (fst kv)))) by (intros kv; rewrite C; reflexivity).
  symmetry. apply puts_perm; [apply filter_perm; apply Permutation_flat_map; exact P| |constructor|intros k f []].
  intros [k f] I. apply filter_In in I. destruct I as [I _]. apply in_flat_map in I. destruct I as (m & M & I). rewrite Forall_forall in T. exact (T m M _ _ I).
Qed.

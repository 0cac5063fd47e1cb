(** Deciding the hypotheses of the flow theorems for concrete files. *)
From Verif Require Import Base ModelNumeric ModelExpr ModelMnemonic ModelAMode ModelState ModelInstr ModelToken ModelStatement
  ModelParse ModelMap ModelModule ModelAssembler SpecArith SpecScope SpecState SpecAssemble SpecFlow SpecStable BaseProofs NameProofs ScopeProofs TermProofs StateProofs FlowRunProofs.
Open Scope list_scope.
Open Scope Z_scope.

Definition is_xce (s : statement) : bool := stmt_is_mnem M_xce s.
Definition sets_carry (s : statement) : bool := stmt_is_mnem M_clc s || stmt_is_mnem M_sec s.
Fixpoint xce_b (prev : bool) (src : source) : bool :=
  match src with
  | [] => true
  | (labels, s) :: rest => (if is_xce s then prev && match labels with [] => true | _ => false end else true) && xce_b (sets_carry s) rest
  end.
Definition entries_known (src : source) : bool :=
  forallb (fun p => match snd p with SDir d => negb (dir_eqb (d_name d) D_entry) || negb (bit_eqb (fl_e (d_flags d)) B_unknown) | _ => true end) src.
Definition tracked_b (src : source) : bool :=
  forallb (fun p => match snd p with SInstr i => negb (stack_untracked (i_mnem i)) | _ => true end) src && xce_b false src && entries_known src.
Lemma dir_eqb_refl : forall d, dir_eqb d d = true.
Proof. intros []; reflexivity. Qed.
Lemma mnem_is : forall m i, stmt_is_mnem m (SInstr i) = true -> i_mnem i = m.
Proof. intros m i H. cbn in H. apply mnem_eqb_eq in H. exact H. Qed.
Lemma xce_b_spec : forall src prev a labels i b, xce_b prev src = true -> src = a ++ (labels, SInstr i) :: b -> i_mnem i = M_xce ->
  labels = [] /\ ((a = [] /\ prev = true) \/ exists a' labels' j, a = a' ++ [(labels', SInstr j)] /\ In (i_mnem j) [M_clc; M_sec]).
Proof.
  induction src as [|[lb s] src IH]; intros prev a labels i b H E X; [destruct a; discriminate E|]. cbn [xce_b] in H.
  apply andb_true_iff in H. destruct H as [H1 H2]. destruct a as [|[la sa] a]; cbn in E; injection E as -> -> E.
  - unfold is_xce in H1. cbn [stmt_is_mnem] in H1. rewrite X in H1. rewrite (proj2 (mnem_eqb_eq _ _) eq_refl) in H1. apply andb_true_iff in H1.
    destruct H1 as [-> L]. destruct labels; [auto|discriminate L].
  - destruct (IH _ _ _ _ _ H2 E X) as [-> [[-> P]|(a' & labels' & j & -> & IN)]].
    + split; [reflexivity|]. right. unfold sets_carry in P. destruct sa as [j|d]; [|discriminate P]. exists [], la, j. split; [reflexivity|].
      apply orb_true_iff in P. destruct P as [P|P]; apply mnem_is in P; rewrite P; cbn; auto.
    + split; [reflexivity|]. right. exists ((la, sa) :: a'), labels', j. auto.
Qed.
Lemma tracked_ok : forall src, tracked_b src = true -> tracked src.
Proof.
  intros src H. unfold tracked_b in H. apply andb_true_iff in H. destruct H as [H KN]. apply andb_true_iff in H. destruct H as [UN XB]. split.
  - intros labels i IN. rewrite forallb_forall in UN. specialize (UN _ IN). cbn in UN. apply negb_true_iff in UN. exact UN.
  - intros a labels i b E X. destruct (xce_b_spec _ _ _ _ _ _ XB E X) as [L [[_ P]|P]]; [discriminate P|]. split; [exact L|]. split; [exact P|].
    intros lb d IN D U. unfold entries_known in KN. rewrite forallb_forall in KN. specialize (KN _ IN). cbn in KN. rewrite D, U, dir_eqb_refl in KN. discriminate KN.
Qed.
Definition forward_b (file : list string) (src : source) : bool :=
  forallb (fun k => match nth_error (map snd src) k with
    | Some (SInstr i) =>
        match i_arg1 i with
        | Some (EId (FullId None n) _) => match denoted file k n with Some (Some t) => Z.of_nat k <? t | Some None => true | None => false end
        | _ => true
        end
    | _ => true
    end) (seq 0 (List.length src)).
Lemma forward_ok : forall file src, SpecScope.reads file src -> forward_b file src = true -> forward src.
Proof.
  intros file src R H k i n ty t ST RB AG DE. unfold forward_b in H. rewrite forallb_forall in H.
  assert (K : In k (seq 0 (List.length src))).
  { apply in_seq. unfold stmt_at in ST. assert (nth_error (map snd src) k <> None) as X by congruence. apply nth_error_Some in X. rewrite map_length in X. lia. }
  specialize (H _ K). cbv beta in H. unfold stmt_at in ST. rewrite ST, AG in H. destruct (denoted file k n) as [r|] eqn:D; [|discriminate H].
  apply (denoted_ok _ _ _ _ _ R D) in DE. subst r. lia.
Qed.
Definition steady_b (f : flags) (src : source) : bool :=
  let known b := bit_eqb b B_on || bit_eqb b B_off in
  known (fl_e f) && known (fl_m f) && known (fl_x f) && (negb (bit_eqb (fl_e f) B_on) || (bit_eqb (fl_m f) B_on && bit_eqb (fl_x f) B_on)) &&
  forallb (fun p => match snd p with
    | SDir d => negb (dir_eqb (d_name d) D_mode) && (negb (dir_eqb (d_name d) D_entry) ||
        (bit_eqb (fl_e (d_flags d)) (fl_e f) && bit_eqb (fl_m (d_flags d)) (fl_m f) && bit_eqb (fl_x (d_flags d)) (fl_x f)))
    | SInstr i => negb (existsb (mnem_eqb (i_mnem i)) [M_rep; M_sep; M_plp; M_xce]) && match i_ret i with RC_yields _ => false | _ => true end
    end) src.
Lemma bit_eqb_true : forall a b, bit_eqb a b = true -> a = b.
Proof. intros [] []; cbn; congruence. Qed.
Lemma steady_ok : forall f src, steady_b f src = true -> steady f src.
Proof.
  intros f src H. unfold steady_b in H. cbv zeta in H. repeat (apply andb_true_iff in H; destruct H as [H ?H]).
  assert (KN : forall b, bit_eqb b B_on || bit_eqb b B_off = true -> In b [B_on; B_off]) by (intros []; cbn; auto; discriminate).
  split; [auto|]. split; [auto|]. split; [auto|]. split.
  { intros E. rewrite E in H1. cbn in H1. apply andb_true_iff in H1. destruct H1 as [A B]. apply bit_eqb_true in A, B. auto. }
  rewrite forallb_forall in H0. split.
  - intros labels d IN. specialize (H0 _ IN). cbn in H0. apply andb_true_iff in H0. destruct H0 as [A B]. split.
    + intros E. rewrite E in A. discriminate A.
    + intros E. rewrite E in B. cbn in B. apply andb_true_iff in B. destruct B as [B C]. apply andb_true_iff in B. destruct B as [B D].
      apply bit_eqb_true in B, C, D. auto.
  - intros labels i IN. specialize (H0 _ IN). cbn in H0. apply andb_true_iff in H0. destruct H0 as [A B]. split.
    + intros X. apply negb_true_iff in A. assert (existsb (mnem_eqb (i_mnem i)) [M_rep; M_sep; M_plp; M_xce] = true); [|cbn in *; congruence].
      apply existsb_exists. exists (i_mnem i). split; [exact X|]. apply mnem_eqb_eq. reflexivity.
    + intros g E. rewrite E in B. discriminate B.
Qed.
(** The source of a file, and an assembled instruction. *)
Definition source_of (file : list string) : source := match read_file file with Some ess => statements [] (concat ess) | None => [] end.
Definition readable (file : list string) : bool := match read_file file with Some _ => true | None => false end.
Lemma source_of_ok : forall file, readable file = true -> SpecScope.reads file (source_of file).
Proof.
  intros file H. unfold readable, source_of in *. destruct (read_file file) as [ess|] eqn:E; [|discriminate H]. apply read_file_ok. exact E.
Qed.
Definition any : sink := fun _ _ => Ok tt.
Definition assembled_instr (file : list string) (k : nat) : option instr :=
  match assemble 99 any [file] with
  | (_, Ok a) => match as_mods a with
                 | [m] => match nth_error (md_lines m) k with
                          | Some l => match ln_stmt l with SInstr i => Some i | _ => None end
                          | None => None end
                 | _ => None end
  | _ => None
  end.
Lemma assembled_ok : forall file k i, assembled_instr file k = Some i ->
  exists ws a m l, assemble 99 any [file] = (ws, Ok a) /\ nth_error (as_mods a) 0 = Some m /\ nth_error (md_lines m) k = Some l /\ ln_stmt l = SInstr i.
Proof.
  intros file k i H. unfold assembled_instr in H. destruct (assemble 99 any [file]) as [ws [a|e|u|]] eqn:A; try discriminate H.
  destruct (as_mods a) as [|m [|m' ms]] eqn:M; try discriminate H. destruct (nth_error (md_lines m) k) as [l|] eqn:L; [|discriminate H].
  destruct (ln_stmt l) as [i0|d] eqn:S; [|discriminate H]. injection H as ->. exists ws, a, m, l. rewrite M. auto 8.
Qed.
Definition reached_lines (file : list string) : option (list bool) :=
  match assemble 99 any [file] with
  | (_, Ok a) => match as_mods a with [m] => Some (map ln_reached (md_lines m)) | _ => None end
  | _ => None
  end.

Definition assembled_lines (file : list string) : list line :=
  match assemble 99 any [file] with
  | (_, Ok a) => match as_mods a with [m] => md_lines m | _ => [] end
  | _ => []
  end.
Definition includes_b (ls : list line) (k : nat) (s : estate) : bool :=
  match nth_error ls k with Some l => ln_reached l && flags_eqb (flags_merge (es_flags (ln_in l)) (es_flags s)) (es_flags (ln_in l)) &&
      stack_eqb (stack_merge (es_stack (ln_in l)) (es_stack s)) (es_stack (ln_in l)) | None => false end.
Definition passed_b (ls : list line) (k : nat) (r : res estate) : bool := match r with Ok s => includes_b ls k s | _ => true end.
Definition stable_b (file : list string) (src : source) (ls : list line) : bool :=
  forallb (fun k => match nth_error (map snd src) k, nth_error ls k with
    | Some st, Some l =>
        match st with
        | SDir d => (negb (dir_eqb (d_name d) D_entry) || includes_b ls (Datatypes.S k) (estate_of_flags (d_flags d))) &&
            (negb (ln_reached l) || dir_eqb (d_name d) D_halt || passed_b ls (Datatypes.S k) (stmt_execute st (ln_in l)))
        | SInstr i => negb (ln_reached l) || ((is_exit_instruction i || passed_b ls (Datatypes.S k) (stmt_execute st (ln_in l))) &&
            match i_arg1 i with
            | Some (EId (FullId None n) _) =>
                match denoted file k n with
                | Some (Some t) => negb (existsb (mnem_eqb (i_mnem i)) [M_bcc; M_bcs; M_beq; M_bmi; M_bne; M_bpl; M_bra; M_brl; M_bvc; M_bvs]) || passed_b ls (Z.to_nat t) (execute_branch i (ln_in l))
                | Some None => true
                | None => false
                end
            | _ => true
            end)
        end
    | _, _ => false
    end) (seq 0 (List.length src)).
Lemma includes_ok : forall ls k s, includes_b ls k s = true -> includes ls k s.
Proof.
  intros ls k s H. unfold includes_b in H. destruct (nth_error ls k) as [l|] eqn:L; [|discriminate H]. apply andb_true_iff in H. destruct H as [R E].
  apply andb_true_iff in R. destruct R as [R F]. apply flags_eqb_eq in F. apply stack_eqb_eq in E. exists l. auto.
Qed.
Lemma stable_ok : forall file src ls, SpecScope.reads file src -> stable_b file src ls = true -> stable src ls.
Proof.
  intros file src ls R H. unfold stable_b in H. rewrite forallb_forall in H.
  assert (K : forall k st, stmt_at src k st -> In k (seq 0 (List.length src))).
  { intros k st ST. apply in_seq. unfold stmt_at in ST. assert (nth_error (map snd src) k <> None) as X by congruence. apply nth_error_Some in X.
    rewrite map_length in X. lia. }
  split; [|split].
  - intros k d ST D. specialize (H _ (K _ _ ST)). cbv beta in H. unfold stmt_at in ST. rewrite ST in H. destruct (nth_error ls k) as [l|]; [|discriminate H].
    apply andb_true_iff in H. destruct H as [H _]. rewrite D in H. cbn [dir_eqb negb orb] in H. apply includes_ok. exact H.
  - intros k l st s' L RE ST E NS ND. specialize (H _ (K _ _ ST)). cbv beta in H. unfold stmt_at in ST. rewrite ST, L in H.
    apply includes_ok. destruct st as [i|d].
    + rewrite RE in H. cbn [negb orb] in H. apply andb_true_iff in H. destruct H as [H _].
      assert (X : is_exit_instruction i = false).
      { specialize (NS _ eq_refl). unfold is_exit_instruction. destruct (rc_is_exit (i_ret i)) eqn:RC.
        - exfalso. apply NS. right. destruct (i_ret i); try discriminate RC. reflexivity.
        - rewrite orb_false_r. destruct (i_mnem i) eqn:M; try reflexivity; exfalso; apply NS; left; rewrite M; cbn; tauto. }
      rewrite X, E in H. exact H.
    + apply andb_true_iff in H. destruct H as [_ H]. rewrite RE, E in H. specialize (ND _ eq_refl).
      assert (X : dir_eqb (d_name d) D_halt = false) by (destruct (d_name d); try reflexivity; destruct ND; reflexivity).
      rewrite X in H. exact H.
  - intros k l i n ty t s' L RE ST RB AG DE E. specialize (H _ (K _ _ ST)). cbv beta in H. unfold stmt_at in ST. rewrite ST, L, RE, AG in H.
    cbn [negb orb] in H. apply andb_true_iff in H. destruct H as [_ H]. destruct (denoted file k n) as [r|] eqn:D; [|discriminate H].
    apply (denoted_ok _ _ _ _ _ R D) in DE. subst r. unfold relative_branch in RB.
    assert (X : existsb (mnem_eqb (i_mnem i)) [M_bcc; M_bcs; M_beq; M_bmi; M_bne; M_bpl; M_bra; M_brl; M_bvc; M_bvs] = true).
    { apply existsb_exists. exists (i_mnem i). split; [exact RB|]. apply mnem_eqb_eq. reflexivity. }
    rewrite X, E in H. apply includes_ok. exact H.
Qed.

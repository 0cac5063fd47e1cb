(** Every way of getting to a statement is covered by a state in which it has been analysed. *)
From Verif Require Import Base ModelNumeric ModelExpr ModelMnemonic ModelAMode ModelOpcode ModelState ModelInstr ModelToken ModelStatement
  ModelParse ModelMap ModelModule ModelAssembler SpecArith SpecText SpecScope SpecState SpecAssemble SpecSafe SpecFlow BaseProofs MapProofs ArithProofs NameProofs StateProofs
  ExecProofs OrderProofs LoadProofs ScopeProofs PassProofs LayoutProofs ProgramProofs TermProofs SafeProofs SafeRunProofs FlowProofs.
Open Scope list_scope.
Open Scope Z_scope.
Local Opaque check_consistency execute_in execute_branch local_index.

(** ** Lines and source. *)
Lemma core_nth : forall (ls ls0 : list line) k l, map core2 ls = map core2 ls0 -> znth ls k = Some l ->
  exists l0, znth ls0 k = Some l0 /\ core2 l = core2 l0.
Proof.
  intros ls ls0 k l C L. pose proof (znth_some _ _ _ _ L) as R.
  assert (zlen ls = zlen ls0) as Z0 by (unfold zlen; apply (f_equal (@List.length _)) in C; rewrite !map_length in C; lia).
  destruct (znth_in_range _ ls0 k) as [l0 L0]; [lia|]. exists l0. split; [exact L0|].
  unfold znth in *. destruct (k <? 0); [discriminate L|].
  pose proof (map_nth_error core2 _ _ L) as A. pose proof (map_nth_error core2 _ _ L0) as B. rewrite C in A. congruence.
Qed.
Lemma line_stmt : forall name src k l, znth (md_lines (module_of name src)) k = Some l -> 0 <= k /\ stmt_at src (Z.to_nat k) (ln_stmt l).
Proof.
  intros name src k l L. change (md_lines (module_of name src)) with (mk_lines (dlist src) 0 [] src) in L.
  pose proof (znth_some _ _ _ _ L) as R. split; [lia|]. unfold stmt_at. rewrite <- (mk_lines_stmts (dlist src) src 0 []).
  unfold znth in L. destruct (Z.ltb_spec k 0); [lia|]. apply map_nth_error. exact L.
Qed.
Lemma stmt_line : forall name src k s, stmt_at src k s -> exists l, znth (md_lines (module_of name src)) (Z.of_nat k) = Some l /\ ln_stmt l = s.
Proof.
  intros name src k s H. unfold stmt_at in H. rewrite <- (mk_lines_stmts (dlist src) src 0 []) in H.
  change (md_lines (module_of name src)) with (mk_lines (dlist src) 0 [] src).
  destruct (nth_error (mk_lines (dlist src) 0 [] src) k) as [l|] eqn:E.
  - exists l. rewrite (map_nth_error ln_stmt _ _ E) in H. injection H as H. split; [|exact H].
    unfold znth. destruct (Z.ltb_spec (Z.of_nat k) 0); [lia|]. rewrite Nat2Z.id. exact E.
  - exfalso. apply nth_error_None in E. assert (nth_error (map ln_stmt (mk_lines (dlist src) 0 [] src)) k = None); [|congruence].
    apply nth_error_None. rewrite map_length. exact E.
Qed.
Lemma stmt_at_split : forall src k s, stmt_at src k s <-> exists a labels b, src = a ++ (labels, s) :: b /\ List.length a = k.
Proof.
  intros src k s. unfold stmt_at. split.
  - intros H. destruct (nth_error src k) as [[labels s']|] eqn:E.
    + pose proof (map_nth_error snd _ _ E) as H2. cbn in H2. assert (s' = s) as -> by congruence. apply nth_error_split in E.
      destruct E as (a & b & -> & L). eauto.
    + exfalso. apply nth_error_None in E. assert (nth_error (map snd src) k = None); [|congruence]. apply nth_error_None. rewrite map_length. exact E.
  - intros (a & labels & b & -> & L). subst k. rewrite map_app. rewrite nth_error_app2 by (rewrite map_length; lia).
    rewrite map_length, Nat.sub_diag. reflexivity.
Qed.
Lemma stmt_at_in : forall src k s, stmt_at src k s -> exists labels, In (labels, s) src.
Proof. intros src k s H. apply stmt_at_split in H. destruct H as (a & labels & b & -> & _). exists labels. apply in_or_app. right. left. reflexivity. Qed.

(** ** XCE only meets known or unknown bits. *)
Definition xce_ok (src : source) (k : Z) (s : estate) : Prop := 0 <= k /\
  (forall labels i, In (labels, SInstr i) src -> i_mnem i = M_xce -> fl_e (es_flags s) <> B_original) /\
  (forall i, stmt_at src (Z.to_nat k) (SInstr i) -> i_mnem i = M_xce -> fl_c (es_flags s) <> B_original).
Lemma xce_merges : forall src, merges (xce_ok src).
Proof.
  intros src k a b (K & A1 & A2) (_ & B1 & B2). split; [exact K|]. split.
  - intros labels i I X. specialize (A1 _ _ I X). intros E. cbn in E. apply merge_original in E. contradiction.
  - intros i I X. specialize (A2 _ I X). intros E. cbn in E. apply merge_original in E. contradiction.
Qed.
Lemma execute_sets_c : forall c i s s', execute_in c i s = Ok s' -> In (i_mnem i) [M_clc; M_sec] -> fl_c (es_flags s') <> B_original.
Proof.
  Local Transparent execute_in.
  intros c i s s' H N. unfold execute_in in H. bok H as u U. cbv zeta in H. cbn [In] in N. destruct N as [N|[N|[]]]; rewrite <- N in H; injection H as <-; discriminate.
  Local Opaque execute_in.
Qed.
Lemma branch_e : forall i s s', execute_branch i s = Ok s' -> exists s1, execute i s = Ok s1 /\ fl_e (es_flags s') = fl_e (es_flags s1) /\
  fl_m (es_flags s') = fl_m (es_flags s1) /\ fl_x (es_flags s') = fl_x (es_flags s1).
Proof.
  Local Transparent execute_branch.
  intros i s s' H. unfold execute_branch in H. bok H as s1 E. injection H as <-. exists s1. split; [exact E|].
  destruct (i_mnem i); repeat split; reflexivity.
  Local Opaque execute_branch.
Qed.

Lemma xce_closed : forall file m src name, load_asm_file file = Ok m -> SpecScope.reads file src -> m = module_of name src -> tracked src ->
  closed_under m (md_lines m) (xce_ok src).
Proof.
  intros file m src name LD RD EM [_ TX] k l s j s' L (K & P1 & P2) F.
  assert (PLAIN : plain_stmt (ln_stmt l)).
  { rewrite EM in L. destruct (line_stmt _ _ _ _ L) as [_ ST]. destruct (stmt_at_in _ _ _ ST) as [labels IN].
    apply (source_plain [file]). exists file, src, labels. split; [left; reflexivity|]. split; assumption. }
  assert (ST : stmt_at src (Z.to_nat k) (ln_stmt l)) by (rewrite EM in L; apply (line_stmt _ _ _ _ L)).
  assert (EXE : forall i s', ln_stmt l = SInstr i -> execute i s = Ok s' -> forall labels i, In (labels, SInstr i) src -> i_mnem i = M_xce -> fl_e (es_flags s') <> B_original).
  { intros i s1 SI E labels i' I X. rewrite SI in PLAIN, ST. eapply keeps_e; [exact E|exact PLAIN|intros N; eapply P2; eassumption|eapply P1; eassumption]. }
  destruct F as [s' NX E|i n j s' SI B A J E].
  - split; [lia|]. split.
    + intros labels i I X. unfold stmt_execute in E. destruct (ln_stmt l) as [i0|d] eqn:SL; [eapply EXE; eauto|].
      cbn in PLAIN. unfold directive_execute in E. specialize (P1 _ _ I X).
      destruct (d_name d); try discriminate E; injection E as <-; try exact P1. apply PLAIN.
    + intros i SI X. apply stmt_at_split in SI. destruct SI as (a & labels & b & EQ & LN).
      destruct (TX _ _ _ _ EQ X) as (_ & (a' & labels' & i' & -> & IN) & _).
      assert (S0 : stmt_at src (Z.to_nat k) (SInstr i')).
      { apply stmt_at_split. exists a', labels', ((labels, SInstr i) :: b). split; [rewrite EQ, <- app_assoc; reflexivity|].
        rewrite app_length in LN. cbn in LN. lia. }
      unfold stmt_at in S0, ST. assert (SE : ln_stmt l = SInstr i') by congruence. rewrite SE in E. eapply execute_sets_c; [exact E|exact IN].
  - assert (D : denotes src k n j).
    { assert (L' : nth_error (md_lines m) (Z.to_nat k) = Some l) by (unfold znth in L; destruct (k <? 0); [discriminate L|exact L]).
      pose proof (lookup_denotes _ _ _ _ _ _ n j LD RD ltac:(unfold same_scopes; auto) L') as [D _]. rewrite Z2Nat.id in D by lia. apply D. exact J. }
    assert (LAB : exists before labels st after p x, src = before ++ (labels, st) :: after /\ j = Z.of_nat (List.length before) /\ nth_error labels p = Some (n, x)).
    { destruct D as (bf & af & _ & _ & D). cbv zeta in D.
      assert (X : exists sc, defined src sc n j) by (destruct D as [(b & _ & X & _)|[X _]]; eauto).
      destruct X as (sc & p & before & labels & st & after & x & EQ & JE & NE & _). exists before, labels, st, after, p, x. auto. }
    destruct LAB as (before & labels & st & after & p & x & EQ & JE & NE). split; [lia|]. split.
    + intros lb i' I X. destruct (branch_e _ _ _ E) as (s1 & E1 & -> & _). eapply EXE; eauto.
    + intros i' SI' X. exfalso. apply stmt_at_split in SI'. destruct SI' as (a & labels' & b & EQ' & LN).
      destruct (TX _ _ _ _ EQ' X) as (-> & _).
      assert (EQ2 : nth_error src (Z.to_nat j) = Some (labels, st)).
      { rewrite EQ, JE, Nat2Z.id, nth_error_app2, Nat.sub_diag by lia. reflexivity. }
      assert (EQ3 : nth_error src (Z.to_nat j) = Some ([], SInstr i')).
      { rewrite EQ', <- LN, nth_error_app2, Nat.sub_diag by lia. reflexivity. }
      rewrite EQ2 in EQ3. injection EQ3 as -> _. destruct p; discriminate NE.
Qed.

(** ** Running the first pass. *)
Definition entry_at (m : module) (j : Z) (s : estate) : Prop :=
  exists k l d, znth (md_lines m) k = Some l /\ ln_stmt l = SDir d /\ d_name d = D_entry /\ j = k + 1 /\ s = estate_of_flags (d_flags d).
Definition nowhere : Z -> estate -> Prop := fun _ _ => False.
Lemma fresh_lines : forall d src i sc l, In l (mk_lines d i sc src) -> ln_reached l = false.
Proof. intros d. induction src as [|[labels s] src IH]; intros i sc l H; cbn [mk_lines] in H; [destruct H|]. destruct H as [<-|H]; [reflexivity|eauto]. Qed.
Lemma start_inv : forall m name src P, m = module_of name src -> merges P -> (forall j s, entry_at m j s -> P j s) ->
  inv m P (entry_at m) nowhere (md_lines m) (entry_states 0 (md_lines m) []).
Proof.
  intros m name src P EM MP HE. destruct (entries_spec (md_lines m) 0 [] I) as (A & _ & C & D). constructor.
  - exact A.
  - intros j s (k & l & d & L & S & N & -> & ->). right. exact (C _ _ _ L S N).
  - apply D; [exact MP|discriminate|]. intros k l d L S N. apply HE. exists k, l, d. auto 6.
  - intros k s [].
  - intros k l L R. exfalso. apply znth_in in L. rewrite EM in L. apply fresh_lines in L. congruence.
Qed.
Definition ends_as (l l' : line) : Prop :=
  ln_in l' = ln_in l /\ ln_reached l' = ln_reached l /\
  match ln_stmt l with
  | SInstr i => ln_reached l = true /\ exists a, settled (es_flags (ln_in l)) (i_mode i) a /\ ln_stmt l' = SInstr (with_mode a i)
  | SDir d => ln_stmt l' = SDir d
  end.
Lemma Forall2_trans : forall A B C (R : A -> B -> Prop) (T : B -> C -> Prop) (U : A -> C -> Prop) l1 l2 l3,
  (forall a b c, R a b -> T b c -> U a c) -> Forall2 R l1 l2 -> Forall2 T l2 l3 -> Forall2 U l1 l3.
Proof. intros A B C R T U l1 l2 l3 H F. revert l3. induction F as [|a b l1 l2 X F IH]; intros l3 G; inversion G; subst; constructor; eauto. Qed.
Lemma program_analysed : forall fuel sk files ws a n file m2 src, assemble fuel sk files = (ws, Ok a) ->
  nth_error files n = Some file -> nth_error (as_mods a) n = Some m2 -> SpecScope.reads file src ->
  exists m0 name ls, load_asm_file file = Ok m0 /\ m0 = module_of name src /\
    first_pass_loop fuel m0 (md_lines m0) (entry_states 0 (md_lines m0) []) = Ok ls /\ Forall2 ends_as ls (md_lines m2).
Proof.
  intros fuel sk files ws a n file m2 src H NF NM RD.
  destruct (program_spec _ _ _ _ _ H) as (ms0 & ms1 & order & wss & LD & _ & F1 & FI & _).
  assert (X : exists m0 m1, load_asm_file file = Ok m0 /\ run_first_pass fuel m0 = Ok m1 /\ finishes m1 m2).
  { clear H RD. revert n NF NM ms1 F1 FI. generalize dependent (as_mods a). induction LD as [|f m0 fs ms0 L LD IH]; intros ms2 n NF NM ms1 F1 FI;
      [destruct n; discriminate NF|]. inversion F1 as [|? m1 ? ms1' R1 F1']; subst. inversion FI as [|? m2' ? ms2' FM FI']; subst.
    destruct n as [|n]; cbn in NF, NM; [injection NF as <-; injection NM as <-; exists m0, m1; auto|eauto]. }
  destruct X as (m0 & m1 & L & R & FM). pose proof (proj1 (load_exact file m0) L) as (src' & name & RD' & _ & _ & EM).
  assert (src' = src) as -> by (eapply reads_det; [exact RD'|exact RD]).
  unfold run_first_pass in R. bok R as ls E. bok R as ls2 E2. bok R as ls3 E3. injection R as <-.
  exists m0, name, ls. split; [exact L|]. split; [exact EM|]. split; [exact E|].
  apply fix_modes_spec in E2. apply layout_keeps in E3. apply finishes_lines in FM. cbn [md_lines md_with_lines] in FM.
  assert (E4 : Forall2 (fun l l' => ln_stmt l' = ln_stmt l /\ ln_in l' = ln_in l /\ ln_reached l' = ln_reached l) ls2 (md_lines m2)).
  { refine (Forall2_trans _ _ _ _ _ _ _ _ _ _ E3 FM). cbv beta. intros l1 l2 l3 (A & B & C) [->|(_ & _ & v & ->)]; auto. }
  refine (Forall2_trans _ _ _ _ _ _ _ _ _ _ E2 E4).
  cbv beta. intros l1 l2 l3 R (A & B & C). unfold resolves_to in R. unfold ends_as. destruct (ln_stmt l1) as [i|d] eqn:SL.
  - destruct R as (RR & i' & FX & ->). apply settled_fix in FX. destruct FX as (mm & S & ->). cbn in A, B, C. split; [congruence|]. split; [congruence|].
    split; [congruence|]. exists mm. split; [exact S|]. congruence.
  - subst l2. split; [congruence|]. split; [congruence|]. congruence.
Qed.

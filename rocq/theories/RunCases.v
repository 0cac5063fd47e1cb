(** Deciding the hypotheses of the execution theorems for concrete files. *)
From Verif Require Import Base ModelNumeric ModelExpr ModelMnemonic ModelAMode ModelState ModelInstr ModelToken ModelStatement
  ModelParse ModelMap ModelModule ModelAssembler Spec65816 SpecArith SpecInstr SpecScope SpecLayout SpecState SpecAssemble SpecFlow SpecStable SpecRun
  BaseProofs NameProofs ScopeProofs ProgramProofs FlowRunProofs FlowArriveProofs FlowCases RunProofs.
Open Scope list_scope.
Open Scope Z_scope.

Definition written_by (file : list string) : list write := fst (assemble 99 any [file]).
Lemma assembled_in : forall file, assembled_lines file <> [] ->
  exists a m, assemble 99 any [file] = (written_by file, Ok a) /\ nth_error (as_mods a) 0 = Some m /\ md_lines m = assembled_lines file.
Proof.
  intros file H. unfold assembled_lines, written_by in *. destruct (assemble 99 any [file]) as [ws [a|e|u|]]; try (destruct (H eq_refl)).
  destruct (as_mods a) as [|m [|m' ms]] eqn:M; try (destruct (H eq_refl)). exists a, m. rewrite M. auto.
Qed.
Lemma stands_at : forall file a m k l pc, assemble 99 any [file] = (written_by file, Ok a) -> nth_error (as_mods a) 0 = Some m -> nth_error (md_lines m) k = Some l ->
  (forall d, ln_stmt l = SDir d -> d_name d <> D_equ) -> (ln_value l = Some pc <-> stands m k pc).
Proof.
  intros file a m k l pc A M L NE. apply (program_located _ _ _ _ _ A m (nth_error_In _ _ M) k l pc L). intros (d & E & N). exact (NE d E N).
Qed.

Definition memory_of (ws : list write) : memory :=
  fun x => match find (fun p => fst p =? x) (flat_map (fun w => combine (touched w) (snd w)) ws) with Some p => snd p | None => 0 end.
Definition in_memory_b (ws : list write) (mem : memory) : bool :=
  forallb (fun w => forallb (fun k => match nth_error (snd w) k with Some b => mem (same_bank_plus (fst w) (Z.of_nat k)) =? b | None => true end)
    (seq 0 (List.length (snd w)))) ws.
Lemma in_memory_ok : forall ws mem, in_memory_b ws mem = true -> in_memory ws mem.
Proof.
  intros ws mem H w k b W K. unfold in_memory_b in H. rewrite forallb_forall in H. specialize (H _ W). rewrite forallb_forall in H.
  assert (X : In k (seq 0 (List.length (snd w)))) by (apply in_seq; split; [lia|]; cbn; apply nth_error_Some; congruence).
  specialize (H _ X). rewrite K in H. apply Z.eqb_eq in H. exact H.
Qed.

(** No conventions, and only directives that make no promises. *)
Definition plain_b (src : source) : bool :=
  forallb (fun p => match snd p with
    | SInstr i => match i_ret i with RC_default => true | _ => false end
    | SDir d => negb (dir_eqb (d_name d) D_halt || dir_eqb (d_name d) D_mode || dir_eqb (d_name d) D_equ) end) src.
Definition no_conv : Z -> retconv := fun _ => RC_default.
Lemma plain_dir : forall src k d, plain_b src = true -> stmt_at src k (SDir d) -> d_name d <> D_halt /\ d_name d <> D_mode /\ d_name d <> D_equ.
Proof.
  intros src k d H ST. destruct (stmt_at_in _ _ _ ST) as [labels I]. unfold plain_b in H. rewrite forallb_forall in H. specialize (H _ I). cbn [snd] in H.
  destruct (d_name d); try discriminate H; repeat split; discriminate.
Qed.
Lemma plain_ok : forall src m o, plain_b src = true -> fenced src /\ modes_true src o /\ calls_true src m no_conv.
Proof.
  intros src m o H. split; [split|split].
  - intros k d _ ST. apply (plain_dir _ _ _ H ST).
  - intros k i n ty t d _ _ _ _ _ ST. apply (plain_dir _ _ _ H ST).
  - intros k d c _ ST DN. destruct (plain_dir _ _ _ H ST) as (_ & X & _). contradiction.
  - intros k i pc ST _. destruct (stmt_at_in _ _ _ ST) as [labels I]. unfold plain_b in H. rewrite forallb_forall in H. specialize (H _ I). cbn [snd] in H.
    destruct (i_ret i); try discriminate H. reflexivity.
Qed.

Definition equ_b (s : statement) : bool := match s with SDir d => dir_eqb (d_name d) D_equ | _ => false end.
Definition value_b (l : line) (pc : Z) : bool := match ln_value l with Some v => v =? pc | None => false end.
Definition stand_b (file : list string) (k : nat) (pc : Z) : bool :=
  match nth_error (assembled_lines file) k with Some l => value_b l pc && negb (equ_b (ln_stmt l)) | None => false end.
Definition nowhere_b (file : list string) (pc : Z) : bool := forallb (fun l => negb (value_b l pc) && negb (equ_b (ln_stmt l))) (assembled_lines file).
Lemma not_equ : forall s, negb (equ_b s) = true -> forall d, s = SDir d -> d_name d <> D_equ.
Proof. intros s H d -> E. cbn in H. rewrite E in H. discriminate H. Qed.
Lemma value_is : forall l pc, value_b l pc = true <-> ln_value l = Some pc.
Proof. intros l pc. unfold value_b. destruct (ln_value l) as [v|]; split; intros H; try discriminate H; [f_equal; lia|injection H as <-; apply Z.eqb_refl]. Qed.
Lemma stand_ok : forall file a m k pc, assemble 99 any [file] = (written_by file, Ok a) -> nth_error (as_mods a) 0 = Some m -> md_lines m = assembled_lines file ->
  stand_b file k pc = true -> stands m k pc.
Proof.
  intros file a m k pc A M L H. unfold stand_b in H. destruct (nth_error (assembled_lines file) k) as [l|] eqn:E; [|discriminate H]. apply andb_true_iff in H. destruct H as [V N].
  rewrite <- L in E. apply (stands_at _ _ _ _ _ _ A M E (not_equ _ N)). apply value_is. exact V.
Qed.
Lemma stands_line : forall m k pc, stands m k pc -> exists l, nth_error (md_lines m) k = Some l.
Proof.
  intros m k pc (bf & s & af & E & LN & _). assert (Y : nth_error (map ln_stmt (md_lines m)) k = Some s) by (rewrite E, nth_error_app2, LN, Nat.sub_diag by lia; reflexivity).
  rewrite nth_error_map in Y. destruct (nth_error (md_lines m) k) as [l|]; [eauto|discriminate Y].
Qed.
Lemma nowhere_ok : forall file a m k pc, assemble 99 any [file] = (written_by file, Ok a) -> nth_error (as_mods a) 0 = Some m -> md_lines m = assembled_lines file ->
  nowhere_b file pc = true -> ~ stands m k pc.
Proof.
  intros file a m k pc A M L H S. destruct (stands_line _ _ _ S) as [l E]. unfold nowhere_b in H. rewrite forallb_forall in H. rewrite <- L in H. specialize (H _ (nth_error_In _ _ E)).
  apply andb_true_iff in H. destruct H as [V N]. apply (stands_at _ _ _ _ _ _ A M E (not_equ _ N)) in S. apply value_is in S. rewrite S in V. discriminate V.
Qed.
Definition pseudo_free (src : source) : bool := forallb (fun p => match snd p with SInstr i => negb (is_pseudo (i_mnem i)) | _ => true end) src.
Lemma pseudo_free_ok : forall src k i, pseudo_free src = true -> stmt_at src k (SInstr i) -> is_pseudo (i_mnem i) = false.
Proof.
  intros src k i H ST. destruct (stmt_at_in _ _ _ ST) as [labels I]. unfold pseudo_free in H. rewrite forallb_forall in H. specialize (H _ I). cbn [snd] in H. apply negb_true_iff in H. exact H.
Qed.

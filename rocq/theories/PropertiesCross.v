(** Property C66: the processor stays on the statements of a program across its jumps and calls. *)
From Verif Require Import Base ModelNumeric ModelExpr ModelMnemonic ModelAMode ModelState ModelInstr ModelStatement ModelMap ModelModule ModelAssembler
  Spec65816 SpecArith SpecInstr SpecScope SpecLayout SpecState SpecAssemble SpecFlow SpecStable SpecRun SpecCross
  ScopeProofs FlowCases RunProofs RunCases CrossProofs PropertiesRun.
Open Scope string_scope.
Open Scope list_scope.
Open Scope Z_scope.

(** C66.  A program of any number of files was assembled and is in the memory.  The processor
    starts at an .entry that is true, and wherever it jumps or calls an .entry stands that is
    true then.  Then wherever it comes, through however many jumps and calls, it is at an
    instruction of one of the files (or inside an ADD or SUB) as C64 says. *)
Theorem C66_program : forall fuel sk files ws a mem conv a0 o0 t o pc c, assemble fuel sk files = (ws, Ok a) -> in_memory ws mem ->
  (forall n src m, part files a n src m -> tracked src /\ fenced src /\ predictable src m /\ calls_true src m conv) ->
  opens files a a0 o0 ->
  (forall t o, enters mem conv a0 o0 t o -> (forall n src m, part files a n src m -> modes_true src o) /\ leads_well files a mem o) ->
  enters mem conv a0 o0 t o -> mem_arrives mem conv t blank o pc c ->
  exists n src m k i, part files a n src m /\ (begins src m mem o k i pc c \/ continues src m mem o k i pc c).
Proof. exact cross_follows. Qed.

(** For this it is enough that in the source every jump and call names a label at an .entry of
    the same file that is true there, in the same bank or with a 24-bit address. *)
Theorem C66_labels : forall fuel sk files ws a mem conv a0 o0 t o pc c, assemble fuel sk files = (ws, Ok a) -> in_memory ws mem ->
  (forall n src m, part files a n src m -> tracked src /\ fenced src /\ predictable src m /\ calls_true src m conv) ->
  opens files a a0 o0 -> (forall o n src m, part files a n src m -> modes_true src o /\ jumps_to_entries src m o) ->
  enters mem conv a0 o0 t o -> mem_arrives mem conv t blank o pc c ->
  exists n src m k i, part files a n src m /\ (begins src m mem o k i pc c \/ continues src m mem o k i pc c).
Proof. exact cross_labels. Qed.

(** The main loop runs with narrow registers and calls a routine that has wide ones. *)
Definition crossing : list string :=
  [".org $8000"; ".entry m8x8"; "top: REP #$30"; "JSR helper"; "SEP #$30"; "JMP top"; ".entry m16x16"; "helper: LDA #$1234"; "RTS"].
Definition crossing_mem : memory := memory_of (written_by crossing).
Definition narrow_flags : flags := RawFlags B_off B_on B_on B_unknown.
Definition wide_flags : flags := RawFlags B_off B_off B_off B_unknown.
Definition crossing_at (k : nat) : option flags :=
  match k with 2 | 5 => Some narrow_flags | 3 | 4 | 7 | 8 => Some wide_flags | _ => None end%nat.
Definition true_in (f : flags) (c : cpu) : Prop := flags_describe (c_modes c) f (c_modes c).
Lemma no_more : forall file n k s, List.length (source_of file) = n -> stmt_at (source_of file) k s -> (k < n)%nat.
Proof. intros file n k s <- ST. unfold stmt_at in ST. rewrite <- (map_length snd). apply nth_error_Some. congruence. Qed.
Lemma crossing_length : List.length (source_of crossing) = 9%nat.
Proof. vm_compute. reflexivity. Qed.
Lemma crossing_arrives : forall o k c, arrives (source_of crossing) o k c -> exists f, crossing_at k = Some f /\ true_in f c.
Proof.
  assert (R : SpecScope.reads crossing (source_of crossing)) by (apply source_of_ok; vm_compute; reflexivity).
  intros o k c AR. induction AR as [k d ST DN MO FD|k i v c c' _ IH ST NS OV MS|k d c _ IH ST _ _|k i n ty t c c' _ IH ST RB _ _ _].
  - pose proof (no_more _ _ _ _ crossing_length ST) as LT. do 9 (destruct k as [|k]; [vm_compute in ST; first [discriminate ST|injection ST as <-; first [discriminate DN|eexists; split; [reflexivity|exact FD]]]|]).
    lia.
  - destruct IH as (f & F & TR). unfold crossing_at in F. pose proof (no_more _ _ _ _ crossing_length ST) as LT.
    do 9 (destruct k as [|k];
      [first [discriminate F
        |injection F as <-; vm_compute in ST; injection ST as <-; first
          [destruct NS; left; cbn; tauto
          |destruct TR as (E & M & X & C); cbn in E, M, X; destruct MS as [MS _]; cbn in MS; eexists; (split; [reflexivity|]); unfold true_in; first
            [assert (v = 0x30) as -> by (apply (OV _ 0x30 eq_refl); apply m_lit); cbn in MS; rewrite MS; repeat split; exact E
            |destruct MS as (cc & MS); rewrite MS; repeat split; assumption
            |rewrite MS; repeat split; assumption]]]|]).
    lia.
  - destruct IH as (f & F & TR). unfold crossing_at in F.
    do 9 (destruct k as [|k]; [first [discriminate F|vm_compute in ST; discriminate ST]|]). discriminate F.
  - destruct IH as (f & F & TR). unfold crossing_at in F.
    do 9 (destruct k as [|k]; [first [discriminate F|vm_compute in ST; injection ST as <-; cbn in RB; exfalso; intuition discriminate]|]). discriminate F.
Qed.
Definition roomy : cpu := Cpu (Modes false false false true) 0 0 0 0 [].
Lemma only_part : forall file a m n src m', nth_error (as_mods a) 0 = Some m -> SpecScope.reads file (source_of file) -> part [file] a n src m' ->
  src = source_of file /\ m' = m.
Proof.
  intros file a m n src m' M R (file' & NF & NM & RD). destruct n as [|[|n]]; [|discriminate NF..]. injection NF as <-. split; [exact (reads_det _ _ _ RD R)|congruence].
Qed.
Lemma same_place : forall file a m k pc pc', assemble 99 any [file] = (written_by file, Ok a) -> nth_error (as_mods a) 0 = Some m -> md_lines m = assembled_lines file ->
  stand_b file k pc' = true -> stands m k pc -> pc = pc'.
Proof.
  intros file a m k pc pc' A M L H S. unfold stand_b in H. destruct (nth_error (assembled_lines file) k) as [l|] eqn:E; [|discriminate H]. apply andb_true_iff in H. destruct H as [V N].
  rewrite <- L in E. apply (stands_at _ _ _ _ _ _ A M E (not_equ _ N)) in S. apply value_is in V. congruence.
Qed.
Lemma crossing_jumps : forall a m, assemble 99 any [crossing] = (written_by crossing, Ok a) -> nth_error (as_mods a) 0 = Some m -> md_lines m = assembled_lines crossing ->
  forall o, jumps_to_entries (source_of crossing) m o.
Proof.
  intros a m A M L o k i c l i' pc AR ST IM _ _ _ SD.
  assert (R : SpecScope.reads crossing (source_of crossing)) by (apply source_of_ok; vm_compute; reflexivity).
  assert (D : forall k n t, denoted crossing k n = Some (Some t) -> denotes (source_of crossing) (Z.of_nat k) n t) by (intros k' n t E; apply (denoted_ok _ _ _ _ _ R E); reflexivity).
  assert (S7 : stands m 7 0x800A) by (apply (stand_ok _ _ _ _ _ A M L); vm_compute; reflexivity).
  assert (S2 : stands m 2 0x8000) by (apply (stand_ok _ _ _ _ _ A M L); vm_compute; reflexivity).
  destruct (crossing_arrives _ _ _ AR) as (f & F & TR). unfold crossing_at in F.
  do 3 (destruct k as [|k]; [first [discriminate F|vm_compute in ST; injection ST as <-; cbn in IM; exfalso; intuition discriminate]|]).
  destruct k as [|k].
  { vm_compute in ST; injection ST as <-. injection F as <-. rewrite (same_place _ _ _ 3%nat pc 0x8002 A M L eq_refl SD). do 3 eexists. exists (Directive D_entry None wide_flags RC_default []), 0x800A. split; [reflexivity|].
    split; [apply (D 3%nat); vm_compute; reflexivity|]. split; [exact S7|]. split; [right; reflexivity|]. split; [|exact TR].
    exists 6%nat. split; [vm_compute; reflexivity|]. split; [reflexivity|]. right. split; [reflexivity|]. eexists. vm_compute. reflexivity. }
  destruct k as [|k]; [vm_compute in ST; injection ST as <-; cbn in IM; exfalso; intuition discriminate|].
  destruct k as [|k].
  { vm_compute in ST; injection ST as <-. injection F as <-. rewrite (same_place _ _ _ 5%nat pc 0x8007 A M L eq_refl SD). do 3 eexists. exists entered, 0x8000. split; [reflexivity|].
    split; [apply (D 5%nat); vm_compute; reflexivity|]. split; [exact S2|]. split; [right; reflexivity|]. split; [|exact TR].
    exists 1%nat. split; [vm_compute; reflexivity|]. split; [reflexivity|]. right. split; [reflexivity|]. eexists. vm_compute. reflexivity. }
  do 3 (destruct k as [|k]; [first [discriminate F|vm_compute in ST; injection ST as <-; cbn in IM; exfalso; intuition discriminate]|]). discriminate F.
Qed.
Lemma crossing_runs : enters crossing_mem no_conv 0x8000 narrow 0x800A roomy /\ mem_arrives crossing_mem no_conv 0x800A blank roomy 0x800D roomy.
Proof.
  assert (A0 : mem_arrives crossing_mem no_conv 0x8000 blank narrow 0x8000 narrow) by (apply me_start; [discriminate|repeat split]).
  assert (A2 : mem_arrives crossing_mem no_conv 0x8000 blank narrow 0x8002 roomy).
  { change 0x8002 with (same_bank_plus 0x8000 (fetch_length crossing_mem 0x8000 narrow)).
    apply (me_next _ _ _ _ _ _ _ _ (Instr M_rep S_none A_imm_b None None RC_default) A0); [split; vm_compute; reflexivity|no_stop|]. split; vm_compute; reflexivity. }
  split.
  - apply (en_jump _ _ _ _ _ _ _ _ _ roomy (en_start _ _ _ _) A2); [vm_compute; reflexivity|reflexivity|discriminate].
  - assert (B0 : mem_arrives crossing_mem no_conv 0x800A blank roomy 0x800A roomy) by (apply me_start; [discriminate|repeat split]).
    change 0x800D with (same_bank_plus 0x800A (fetch_length crossing_mem 0x800A roomy)).
    apply (me_next _ _ _ _ _ _ _ _ (Instr M_lda S_none A_imm_w None None RC_default) B0); [split; vm_compute; reflexivity|no_stop|]. split; reflexivity.
Qed.
Example C66_labels_case : exists a, assemble 99 any [crossing] = (written_by crossing, Ok a) /\ in_memory (written_by crossing) crossing_mem /\
  (forall n src m, part [crossing] a n src m -> tracked src /\ fenced src /\ predictable src m /\ calls_true src m no_conv) /\
  opens [crossing] a 0x8000 narrow /\ (forall o n src m, part [crossing] a n src m -> modes_true src o /\ jumps_to_entries src m o) /\
  enters crossing_mem no_conv 0x8000 narrow 0x800A roomy /\ mem_arrives crossing_mem no_conv 0x800A blank roomy 0x800D roomy.
Proof.
  destruct (assembled_in crossing) as (a & m & A & M & L); [vm_compute; discriminate|]. exists a. split; [exact A|].
  assert (R : SpecScope.reads crossing (source_of crossing)) by (apply source_of_ok; vm_compute; reflexivity).
  split; [apply in_memory_ok; vm_compute; reflexivity|].
  assert (P : forall o, fenced (source_of crossing) /\ modes_true (source_of crossing) o /\ calls_true (source_of crossing) m no_conv) by (intros o; apply plain_ok; vm_compute; reflexivity).
  split; [|split; [|split; [|exact crossing_runs]]].
  - intros n src m' PT. destruct (only_part _ _ _ _ _ _ M R PT) as [-> ->]. destruct (P narrow) as (P1 & _ & P3). split; [apply tracked_ok; vm_compute; reflexivity|]. split; [exact P1|]. split; [|exact P3].
    do 3 right. rewrite L. apply (stable_ok _ _ _ R). vm_compute. reflexivity.
  - exists 0%nat, (source_of crossing), m, 1%nat, entered. split; [exists crossing; split; [reflexivity|split; [exact M|exact R]]|]. split; [vm_compute; reflexivity|]. split; [reflexivity|].
    split; [apply (stand_ok _ _ _ _ _ A M L); vm_compute; reflexivity|repeat split].
  - intros o n src m' PT. destruct (only_part _ _ _ _ _ _ M R PT) as [-> ->]. destruct (P o) as (_ & P2 & _). split; [exact P2|]. exact (crossing_jumps _ _ A M L o).
Qed.
Print Assumptions C66_labels.
(** So the conditions of C66_program hold too. *)
Example C66_program_case : exists a, assemble 99 any [crossing] = (written_by crossing, Ok a) /\ opens [crossing] a 0x8000 narrow /\
  (forall t o, enters crossing_mem no_conv 0x8000 narrow t o -> (forall n src m, part [crossing] a n src m -> modes_true src o) /\ leads_well [crossing] a crossing_mem o).
Proof.
  destruct C66_labels_case as (a & A & IM & CH & OP & ALL & _). exists a. split; [exact A|]. split; [exact OP|]. intros t o _.
  assert (MT : forall n src m, part [crossing] a n src m -> modes_true src o) by (intros n src m P; apply (ALL o _ _ _ P)). split; [exact MT|].
  apply (labels_lead _ _ _ _ _ _ _ _ A IM CH MT). intros n src m P. apply (ALL o _ _ _ P).
Qed.
Print Assumptions C66_program.

(** That the .entry is true has to be promised, the assembler does not look: this program jumps
    with wide registers to an .entry for narrow ones, and is assembled.  The LDA there takes two
    bytes of operand, and the processor goes on where no statement stands. *)
Definition mistaken : list string :=
  [".org $8000"; ".entry m8x8"; "top: REP #$30"; "JMP helper"; ".entry m8x8"; "helper: LDA #$12"; "RTS"].
Definition mistaken_mem : memory := memory_of (written_by mistaken).
Theorem C66_unchecked_refuted :
  ~ forall fuel sk files ws a mem conv a0 o0 t o pc c, assemble fuel sk files = (ws, Ok a) -> in_memory ws mem ->
      (forall n src m, part files a n src m -> tracked src /\ fenced src /\ predictable src m /\ calls_true src m conv) ->
      opens files a a0 o0 -> (forall o n src m, part files a n src m -> modes_true src o) ->
      (forall n src m k i pc t, part files a n src m -> stmt_at src k (SInstr i) -> stands m k pc -> jump_target mem pc = Some t ->
         exists n src m k d, part files a n src m /\ stmt_at src k (SDir d) /\ d_name d = D_entry /\ stands m k t) ->
      enters mem conv a0 o0 t o -> mem_arrives mem conv t blank o pc c ->
      exists n src m k i, part files a n src m /\ (begins src m mem o k i pc c \/ continues src m mem o k i pc c).
Proof.
  intros H. destruct (assembled_in mistaken) as (a & m & A & M & L); [vm_compute; discriminate|].
  assert (R : SpecScope.reads mistaken (source_of mistaken)) by (apply source_of_ok; vm_compute; reflexivity).
  assert (P : forall o, fenced (source_of mistaken) /\ modes_true (source_of mistaken) o /\ calls_true (source_of mistaken) m no_conv) by (intros o; apply plain_ok; vm_compute; reflexivity).
  assert (PT : part [mistaken] a 0 (source_of mistaken) m) by (exists mistaken; split; [reflexivity|split; [exact M|exact R]]).
  assert (IM : in_memory (written_by mistaken) mistaken_mem) by (apply in_memory_ok; vm_compute; reflexivity).
  assert (A0 : mem_arrives mistaken_mem no_conv 0x8000 blank narrow 0x8000 narrow) by (apply me_start; [discriminate|repeat split]).
  assert (A2 : mem_arrives mistaken_mem no_conv 0x8000 blank narrow 0x8002 roomy).
  { change 0x8002 with (same_bank_plus 0x8000 (fetch_length mistaken_mem 0x8000 narrow)).
    apply (me_next _ _ _ _ _ _ _ _ (Instr M_rep S_none A_imm_b None None RC_default) A0); [split; vm_compute; reflexivity|no_stop|]. split; vm_compute; reflexivity. }
  assert (EN : enters mistaken_mem no_conv 0x8000 narrow 0x8005 roomy) by (apply (en_jump _ _ _ _ _ _ _ _ _ roomy (en_start _ _ _ _) A2); [vm_compute; reflexivity|reflexivity|discriminate]).
  assert (B0 : mem_arrives mistaken_mem no_conv 0x8005 blank roomy 0x8005 roomy) by (apply me_start; [discriminate|repeat split]).
  assert (B1 : mem_arrives mistaken_mem no_conv 0x8005 blank roomy 0x8008 roomy).
  { change 0x8008 with (same_bank_plus 0x8005 (fetch_length mistaken_mem 0x8005 roomy)).
    apply (me_next _ _ _ _ _ _ _ _ (Instr M_lda S_none A_imm_w None None RC_default) B0); [split; vm_compute; reflexivity|no_stop|]. split; reflexivity. }
  assert (S4 : stands m 4 0x8005) by (apply (stand_ok _ _ _ _ _ A M L); vm_compute; reflexivity).
  assert (NS : forall k, ~ stands m k 0x8008) by (intros k; apply (nowhere_ok _ _ _ _ _ A M L); vm_compute; reflexivity).
  destruct (H _ _ _ _ _ mistaken_mem no_conv 0x8000 narrow 0x8005 roomy 0x8008 roomy A IM) as (n & src & m' & k & i & P' & BC).
  - intros n src m' PT'. destruct (only_part _ _ _ _ _ _ M R PT') as [-> ->]. destruct (P narrow) as (P1 & _ & P3). split; [apply tracked_ok; vm_compute; reflexivity|]. split; [exact P1|]. split; [|exact P3].
    do 3 right. rewrite L. apply (stable_ok _ _ _ R). vm_compute. reflexivity.
  - exists 0%nat, (source_of mistaken), m, 1%nat, entered. split; [exact PT|]. split; [vm_compute; reflexivity|]. split; [reflexivity|].
    split; [apply (stand_ok _ _ _ _ _ A M L); vm_compute; reflexivity|repeat split].
  - intros o n src m' PT'. destruct (only_part _ _ _ _ _ _ M R PT') as [-> ->]. apply P.
  - intros n src m' k i pc t PT' ST SD JT. destruct (only_part _ _ _ _ _ _ M R PT') as [-> ->].
    assert (LT : (k < 7)%nat) by (apply (no_more mistaken 7 k (SInstr i)); [vm_compute; reflexivity|exact ST]).
    do 7 (destruct k as [|k]; [first [vm_compute in ST; discriminate ST
      |rewrite (same_place _ _ _ 2%nat pc 0x8000 A M L eq_refl SD) in JT; vm_compute in JT; discriminate JT
      |rewrite (same_place _ _ _ 3%nat pc 0x8002 A M L eq_refl SD) in JT; vm_compute in JT; injection JT as <-; exists 0%nat, (source_of mistaken), m, 4%nat, entered;
         split; [exact PT|split; [vm_compute; reflexivity|split; [reflexivity|exact S4]]]
      |rewrite (same_place _ _ _ 5%nat pc 0x8005 A M L eq_refl SD) in JT; vm_compute in JT; discriminate JT
      |rewrite (same_place _ _ _ 6%nat pc 0x8007 A M L eq_refl SD) in JT; vm_compute in JT; discriminate JT]|]). lia.
  - exact EN.
  - exact B1.
  - destruct (only_part _ _ _ _ _ _ M R P') as [-> ->]. destruct BC as [(_ & _ & X & _)|(adr & c0 & (_ & SK & _) & PS & _)]; [exact (NS _ X)|].
    rewrite (pseudo_free_ok (source_of mistaken) k i) in PS; [discriminate PS|vm_compute; reflexivity|exact SK].
Qed.
Print Assumptions C66_unchecked_refuted.

(** Disassembling what was assembled finds the instructions of the source. *)
From Verif Require Import Base ModelNumeric ModelExpr ModelMnemonic ModelAMode ModelOpcode ModelState ModelInstr ModelToken ModelStatement
  ModelParse ModelMap ModelModule ModelAssembler ModelRom ModelDisasm ModelTools Spec65816 SpecArith SpecText SpecInstr SpecRom SpecScope SpecLayout SpecState SpecAssemble SpecSafe SpecFlow SpecStable SpecDisasm SpecRun SpecMeet
  BaseProofs MapProofs ArithProofs NameProofs ModeProofs InstrProofs StateProofs ExecProofs RomProofs OrderProofs LoadProofs ScopeProofs PassProofs LayoutProofs ProgramProofs TermProofs
  SafeProofs SafeRunProofs FlowProofs FlowRunProofs FlowArriveProofs FlowKindProofs StableProofs RunProofs CompleteProofs DisTermProofs DisClosedProofs DisCases MainToolProofs.
Open Scope string_scope.
Open Scope list_scope.
Open Scope Z_scope.
Local Opaque decode_opcode encode_opcode execute_in check_consistency is_legal_combination execute_branch.

Lemma fetch_short : forall op m x, 1 <= cpu_length op m x <= 4.
Proof. intros op m x. unfold cpu_length. destruct (op_form op), m, x; cbn; lia. Qed.
Lemma told_calls : forall rets mem, only_calls mem (told rets mem).
Proof.
  intros rets mem pc H. unfold told, convention in H. destruct (direct_target _ _ _); [|contradiction]. destruct (in_names (mem pc) ["jsr"; "jsl"]) eqn:I; [|contradiction].
  unfold in_names in I. apply existsb_exists in I. destruct I as (n & IN & E). apply String.eqb_eq in E. rewrite E. exact IN.
Qed.
Lemma first_few : forall A (f : nat -> A) n, (n <= 4)%nat -> firstn n (map f (seq 0 4)) = map f (seq 0 n).
Proof. intros A f n H. do 5 (destruct n as [|n]; [reflexivity|]). lia. Qed.
Lemma pictured : forall img mem pc c op rest, pictures img mem -> addr24 pc -> img pc 4 = Ok (op :: rest) ->
  op = mem pc /\ rest = map (fun k => mem (same_bank_plus pc (Z.of_nat k))) (seq 1 3) /\ nth 0 rest 0 = mem (same_bank_plus pc 1) /\
  firstn (Z.to_nat (fetch_length mem pc c)) (op :: rest) = fetched mem pc c.
Proof.
  intros img mem pc c op rest PI A24 IM. pose proof (PI _ _ A24 IM) as E. pose proof (fetch_short (mem pc) (p_m (c_modes c)) (p_x (c_modes c))) as F. fold (fetch_length mem pc c) in F.
  assert (X : firstn (Z.to_nat (fetch_length mem pc c)) (op :: rest) = fetched mem pc c) by (rewrite E; apply first_few; lia).
  cbn [seq map] in E. injection E as E ER. change (Z.of_nat 0) with 0 in E. rewrite (zero_plus _ A24) in E. split; [exact E|]. split; [exact ER|]. split; [rewrite ER; reflexivity|exact X].
Qed.

(** What the disassembler is told. *)
Record meeting (img : ModelRom.source) (mem : memory) (rets : omap retconv) (q : list (Z * flags)) (d : disassembler) : Prop := Meeting {
  mt_pic : pictures img mem; mt_bytes : byte_source img; mt_conv : conventions_ok rets; mt_run : session img rets q d; mt_followed : followed d }.

Lemma arrival_in : forall fuel sk files ws a n file m src o mem conv k0 d0 a0 pc c, setting fuel sk files ws a n file m src o mem conv ->
  stmt_at src k0 (SDir d0) -> d_name d0 = D_entry -> stands m k0 a0 -> mem_arrives mem conv a0 (d_flags d0) o pc c -> addr24 pc.
Proof.
  intros fuel sk files ws a n file m src o mem conv k0 d0 a0 pc c SE ST DN SD MA.
  destruct (follows_source _ _ _ _ _ _ _ _ _ _ _ _ _ _ _ _ _ SE ST DN SD MA) as (k & i & [B|[C _]]).
  - destruct (begins_encoded _ _ _ _ _ _ _ _ _ _ _ _ _ _ _ _ SE B) as [_ NA]. eapply next_address_range. exact NA.
  - destruct C as (adr & c0 & B & _ & -> & _). destruct (begins_encoded _ _ _ _ _ _ _ _ _ _ _ _ _ _ _ _ SE B) as [_ NA]. apply same_bank_plus_24. eapply next_address_range. exact NA.
Qed.
Lemma to_rom : forall fuel sk files ws a n file m src o mem k0 d0 a0 pc c img rets q d, setting fuel sk files ws a n file m src o mem (told rets mem) ->
  meeting img mem rets q d -> stmt_at src k0 (SDir d0) -> d_name d0 = D_entry -> stands m k0 a0 -> In (a0, d_flags d0) q ->
  mem_arrives mem (told rets mem) a0 (d_flags d0) o pc c -> rom_arrives img rets a0 (d_flags d0) o pc c.
Proof.
  intros fuel sk files ws a n file m src o mem k0 d0 a0 pc c img rets q d SE MT ST DN SD IQ MA.
  induction MA as [MO FD|pc c c' i MA IH PF NS MS|pc c c' i t MA IH PF RB BD BS].
  - apply ro_start; assumption.
  - pose proof (arrival_in _ _ _ _ _ _ _ _ _ _ _ _ _ _ _ _ _ SE ST DN SD MA) as A24.
    destruct (runs _ _ _ _ _ _ _ _ _ (mt_conv _ _ _ _ _ MT) (mt_bytes _ _ _ _ _ MT) (mt_run _ _ _ _ _ MT) (mt_followed _ _ _ _ _ MT) IQ IH) as (x & op & rest & CO & IM & _).
    destruct (pictured _ _ _ c _ _ (mt_pic _ _ _ _ _ MT) A24 IM) as (EO & ER & EN & EF). unfold fetch_length. rewrite <- EO.
    refine (ro_next _ _ _ _ _ _ _ _ _ _ i IH IM _ NS _); [split; [rewrite EO; apply PF|]|rewrite EN; exact MS]. rewrite (proj2 PF). unfold told. rewrite <- EO, <- ER. reflexivity.
  - pose proof (arrival_in _ _ _ _ _ _ _ _ _ _ _ _ _ _ _ _ _ SE ST DN SD MA) as A24.
    destruct (runs _ _ _ _ _ _ _ _ _ (mt_conv _ _ _ _ _ MT) (mt_bytes _ _ _ _ _ MT) (mt_run _ _ _ _ _ MT) (mt_followed _ _ _ _ _ MT) IQ IH) as (x & op & rest & CO & IM & _).
    destruct (pictured _ _ _ c _ _ (mt_pic _ _ _ _ _ MT) A24 IM) as (EO & ER & EN & EF).
    refine (ro_branch _ _ _ _ _ _ _ _ _ _ i t IH IM _ RB _ BS); [split; [rewrite EO; apply PF|]|]. { rewrite (proj2 PF). unfold told. rewrite <- EO, <- ER. reflexivity. }
    rewrite <- BD, <- EF. unfold fetch_length. rewrite <- EO. reflexivity.
Qed.
(** What is collected where the processor arrives. *)
Lemma found_there : forall fuel sk files ws a n file m src o mem k0 d0 a0 pc c img rets q d, setting fuel sk files ws a n file m src o mem (told rets mem) ->
  meeting img mem rets q d -> stmt_at src k0 (SDir d0) -> d_name d0 = D_entry -> stands m k0 a0 -> In (a0, d_flags d0) q ->
  mem_arrives mem (told rets mem) a0 (d_flags d0) o pc c -> exists x, collected d pc x /\ mnem_to_string (i_mnem (di_instr x)) = op_name (mem pc) /\ bytes_at img pc (di_instr x) (fetched mem pc c).
Proof.
  intros fuel sk files ws a n file m src o mem k0 d0 a0 pc c img rets q d SE MT ST DN SD IQ MA. pose proof (to_rom _ _ _ _ _ _ _ _ _ _ _ _ _ _ _ _ _ _ _ _ SE MT ST DN SD IQ MA) as RA.
  pose proof (arrival_in _ _ _ _ _ _ _ _ _ _ _ _ _ _ _ _ _ SE ST DN SD MA) as A24.
  destruct (runs _ _ _ _ _ _ _ _ _ (mt_conv _ _ _ _ _ MT) (mt_bytes _ _ _ _ _ MT) (mt_run _ _ _ _ _ MT) (mt_followed _ _ _ _ _ MT) IQ RA) as (x & op & rest & CO & IM & _ & MN & LN).
  destruct (pictured _ _ _ c _ _ (mt_pic _ _ _ _ _ MT) A24 IM) as (EO & ER & EN & EF). exists x. split; [exact CO|]. split; [rewrite MN, EO; reflexivity|].
  exists (op :: rest). split; [exact IM|]. rewrite LN, EO. symmetry. rewrite EO in EF. exact EF.
Qed.

(** Between the two halves of an ADD or SUB. *)
Lemma between : forall fuel sk files ws a n file m src o mem conv k i pc c a0 f, setting fuel sk files ws a n file m src o mem conv -> only_calls mem conv ->
  ready src m o k pc c -> stmt_at src k (SInstr i) -> is_pseudo (i_mnem i) = true -> mem_arrives mem conv a0 f o pc c ->
  exists c1, mem_arrives mem conv a0 f o (same_bank_plus pc 1) c1 /\ fetched mem pc c = pseudo_prefix (i_mnem i) /\ fetched mem (same_bank_plus pc 1) c1 = fetched mem (same_bank_plus pc 1) c.
Proof.
  intros fuel sk files ws a n file m src o mem conv k i pc c a0 f SE OC RY ST P MA.
  pose proof (ready_begins _ _ _ _ _ _ _ _ _ _ _ _ _ _ _ _ SE RY ST) as (_ & _ & _ & ON & _).
  destruct (ready_encoded _ _ _ _ _ _ _ _ _ _ _ _ _ _ _ _ SE RY ST) as (l & i' & op & rest & L & SL & MN & AG & A24 & _ & OL & IB & EO & SZ & ME & LN).
  destruct (pseudo_cases (i_mnem i)) as [(P' & _)|(_ & b & PP & OP & _ & CL)]; [congruence|]. rewrite PP in *. cbn [app] in ME.
  pose proof (first_byte _ _ _ A24 ME _ _ eq_refl) as F.
  assert (FL : fetch_length mem pc c = 1) by (unfold fetch_length; rewrite F; apply CL).
  assert (RC : conv pc = RC_default).
  { destruct (conv pc) eqn:C; [reflexivity|exfalso..]; specialize (OC pc); rewrite C, ON in OC; specialize (OC ltac:(discriminate)); destruct (i_mnem i); try discriminate P; cbn in OC; intuition discriminate. }
  assert (D : i_mnem i = PM_add \/ i_mnem i = PM_sub) by (destruct (i_mnem i); try discriminate P; [left|right]; reflexivity).
  set (c1 := Cpu (Modes (p_e (c_modes c)) (p_m (c_modes c)) (p_x (c_modes c)) (mnem_eqb (i_mnem i) PM_sub)) (c_a c) (c_xr c) (c_yr c) (c_dbr c) (c_stack c)).
  exists c1. split; [|split].
  - rewrite <- FL. refine (me_next _ _ _ _ _ _ _ _ (half i (opening (i_mnem i)) RC_default) MA _ _ _); [split; [symmetry; exact ON|symmetry; exact RC]| |].
    + unfold stops, half. cbn [i_mnem i_ret]. destruct D as [-> | ->]; cbn; intros [X|X]; [intuition discriminate|discriminate X|intuition discriminate|discriminate X].
    + unfold mode_step, modes_step, half, c1. cbn [i_mnem i_ret i_mode]. destruct D as [-> | ->]; cbn; split; reflexivity.
  - unfold fetched. rewrite FL. change (Z.to_nat 1) with 1%nat. cbn [seq map]. change (Z.of_nat 0) with 0. rewrite (zero_plus _ A24), F. reflexivity.
  - reflexivity.
Qed.

Lemma source_found : forall fuel sk files ws a n file m src o mem img rets q d k i c, assemble fuel sk files = (ws, Ok a) -> nth_error files n = Some file ->
  nth_error (as_mods a) n = Some m -> SpecScope.reads file src -> tracked src -> fenced src -> predictable src m -> in_memory ws mem -> modes_true src o -> status_known src ->
  pictures img mem -> byte_source img -> conventions_ok rets -> session img rets q d -> followed d -> calls_true src m (told rets mem) ->
  (forall k0 d0 a0, stmt_at src k0 (SDir d0) -> d_name d0 = D_entry -> stands m k0 a0 -> In (a0, d_flags d0) q) ->
  arrives src o k c -> stmt_at src k (SInstr i) ->
  exists pc b, stands m k pc /\ In (pc, b) ws /\ listed img d pc (machine_names (i_mnem i)) b.
Proof.
  intros fuel sk files ws a n file m src o mem img rets q d k i c H NF NM RD TR FE PR IM MT SK PI BS CO SE FO CT EN AR ST.
  assert (ME : meeting img mem rets q d) by (constructor; assumption).
  assert (SG : setting fuel sk files ws a n file m src o mem (told rets mem)) by (constructor; try assumption; eapply predictable_fits; eassumption).
  destruct (source_done _ _ _ _ _ _ _ _ _ _ _ _ _ _ SG SK (told_calls rets mem) AR) as (pc & NA & k0 & d0 & a0 & ST0 & DN0 & PL0 & MA).
  assert (RY : ready src m o k pc c) by (split; assumption). pose proof (EN _ _ _ ST0 DN0 PL0) as IQ.
  destruct (ready_encoded _ _ _ _ _ _ _ _ _ _ _ _ _ _ _ _ SG RY ST) as (l & i' & op & rest & L & SL & MN & AG & A24 & PL & OL & IB & EO & SZ & MB & LN).
  pose proof (ready_begins _ _ _ _ _ _ _ _ _ _ _ _ _ _ _ _ SG RY ST) as (_ & _ & _ & ON & lx & LX & SX). assert (lx = l) as -> by congruence.
  exists pc, (pseudo_prefix (i_mnem i) ++ op :: rest). split; [exact PL|]. split.
  { assert (PS : 0 < stmt_size (ln_stmt l)) by (rewrite SZ; unfold zlen; rewrite app_length; cbn [List.length]; lia).
    destruct (program_written _ _ _ _ _ _ _ _ _ H NM L PS) as ([adr b] & IW & VA & A24' & SB & LE). cbn [fst snd] in *.
    assert (IN : In m (as_mods a)) by (eapply nth_error_In; exact NM). assert (NE : ~ is_dir D_equ (ln_stmt l)) by (rewrite SL; apply not_dir).
    pose proof (proj2 (program_located _ _ _ _ _ H m IN k l pc L NE) PL) as VP. assert (adr = pc) as -> by congruence.
    rewrite SL in SB. cbn [stmt_bytes] in SB. bok SB as b' IB'. injection SB as ->. fold (context a m l) in IB'. rewrite IB in IB'. injection IB' as <-. exact IW. }
  destruct (found_there _ _ _ _ _ _ _ _ _ _ _ _ _ _ _ _ _ _ _ _ SG ME ST0 DN0 PL0 IQ MA) as (x & CX & NX & BX). rewrite ON in NX.
  destruct (pseudo_cases (i_mnem i)) as [(P & PP & OP & HM)|(P & b & PP & OP & _ & CL)]; rewrite P in SX; rewrite PP in *; cbn [app] in *.
  - rewrite (fetched_bytes mem pc c (op :: rest) MB) in BX by (rewrite <- SZ; exact SX).
    replace (machine_names (i_mnem i)) with [mnem_to_string (i_mnem i)] by (destruct (i_mnem i); try reflexivity; discriminate P). rewrite OP in NX.
    rewrite <- (app_nil_r (op :: rest)). eapply li_next; [exact CX|exact NX|exact BX|apply li_end].
  - destruct (between _ _ _ _ _ _ _ _ _ _ _ _ _ _ _ _ _ _ SG (told_calls rets mem) RY ST P MA) as (c1 & MA1 & F0 & F1).
    destruct (found_there _ _ _ _ _ _ _ _ _ _ _ _ _ _ _ _ _ _ _ _ SG ME ST0 DN0 PL0 IQ MA1) as (y & CY & NY & BY). rewrite F0, PP in BX. rewrite F1 in BY.
    pose proof (MB 1%nat op eq_refl) as M1. change (Z.of_nat 1) with 1 in M1.
    rewrite (fetched_bytes mem (same_bank_plus pc 1) c (op :: rest)) in BY.
    + replace (machine_names (i_mnem i)) with [mnem_to_string (opening (i_mnem i)); mnem_to_string (hardware_mnemonic (i_mnem i))] by (destruct (i_mnem i); try reflexivity; discriminate P).
      change (b :: op :: rest) with ([b] ++ op :: rest). eapply li_next; [exact CX|exact NX|exact BX|]. rewrite <- (app_nil_r (op :: rest)). cbn [List.length]. change (Z.of_nat 1) with 1.
      eapply li_next; [exact CY| |exact BY|apply li_end]. rewrite NY, M1. apply encode_opcode_iff in EO. apply EO.
    + intros j z J. rewrite plus_steps. specialize (MB (S j) z J). replace (1 + Z.of_nat j) with (Z.of_nat (S j)) by lia. exact MB.
    + unfold zlen in *. cbn [List.length] in SZ |- *. lia.
Qed.

(** The image and the source agree, as quick_assemble checks. *)
Lemma nth_byte_nat : forall l k (b : Z), nth_error l k = Some b -> nth_byte l (Z.of_nat k) = Some b.
Proof.
  intros l k b H. rewrite <- znth_nth_byte. unfold znth. destruct (Z.ltb_spec (Z.of_nat k) 0); [lia|]. rewrite Nat2Z.id. exact H.
Qed.
Lemma cartridge_holds : forall fuel r files ws a mem, assemble fuel (identity_sink r) files = (ws, Ok a) -> cartridge r mem -> in_memory ws mem /\ pictures (rom_read r) mem.
Proof.
  intros fuel r files ws a mem H C. split.
  - intros w k b W K. apply compared in H. destruct H as [H AG]. destruct (write_fits _ _ _ _ _ _ H W) as [A _]. apply C; [apply same_bank_plus_24; exact A|]. apply (AG w (Z.of_nat k) b W). apply nth_byte_nat. exact K.
  - intros x l A24 E. apply (proj1 (rom_read_exact r x 4 A24 ltac:(lia))) in E. destruct E as [LN E]. assert (List.length l = 4%nat) by lia.
    assert (X : forall k b, nth_error l k = Some b -> b = mem (same_bank_plus x (Z.of_nat k))) by (intros k b K; symmetry; apply C; [apply same_bank_plus_24; exact A24|]; apply E; apply nth_byte_nat; exact K).
    destruct l as [|b0 [|b1 [|b2 [|b3 [|]]]]]; try discriminate. cbn [seq map]. rewrite (X 0%nat b0 eq_refl), (X 1%nat b1 eq_refl), (X 2%nat b2 eq_refl), (X 3%nat b3 eq_refl). reflexivity.
Qed.
Lemma rom_found : forall fuel r files ws a n file m src o mem rets q d k i c, assemble fuel (identity_sink r) files = (ws, Ok a) -> nth_error files n = Some file ->
  nth_error (as_mods a) n = Some m -> SpecScope.reads file src -> tracked src -> fenced src -> predictable src m -> bytes_ok (rom_data r) -> cartridge r mem -> modes_true src o -> status_known src ->
  conventions_ok rets -> session (rom_read r) rets q d -> followed d -> calls_true src m (told rets mem) ->
  (forall k0 d0 a0, stmt_at src k0 (SDir d0) -> d_name d0 = D_entry -> stands m k0 a0 -> In (a0, d_flags d0) q) ->
  arrives src o k c -> stmt_at src k (SInstr i) ->
  exists pc b, stands m k pc /\ In (pc, b) ws /\ listed (rom_read r) d pc (machine_names (i_mnem i)) b.
Proof.
  intros fuel r files ws a n file m src o mem rets q d k i c H NF NM RD TR FE PR BO CA MT SK CO SE FO CT EN AR ST. destruct (cartridge_holds _ _ _ _ _ _ H CA) as [IM PI].
  exact (source_found _ _ _ _ _ _ _ _ _ _ _ _ _ _ _ _ _ _ H NF NM RD TR FE PR IM MT SK PI (rom_bytes r BO) CO SE FO CT EN AR ST).
Qed.

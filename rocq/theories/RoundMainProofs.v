(** The listings of the program quick_disassemble, saved and given to the program quick_assemble. *)
From Verif Require Import Base ModelNumeric ModelAddress ModelExpr ModelMnemonic ModelAMode ModelState ModelInstr ModelMap ModelModule ModelAssembler ModelRom ModelDisasm ModelTools ModelFile ModelMain
  Spec65816 SpecArith SpecInstr SpecState SpecFlow SpecRom SpecDisasm SpecListing SpecText SpecAssemble SpecSink SpecTools SpecRelist SpecFile SpecMain BaseProofs ScanProofs MainProofs MainToolProofs ListCheckProofs FileTextProofs ToolProofs.
Open Scope string_scope.
Open Scope list_scope.
Open Scope Z_scope.

Lemma round_main : forall fuel disk msg no_file prog path s mode args r rs seeds d left lines d',
  image_at disk path r -> requests r (s :: mode :: args) rs -> (forall a f, In (a, f) rs -> addr24 a) -> holds_requests seeds rs -> (forall e, one_line (msg e)) ->
  run_passes 100 fuel msg (rom_read r) seeds new_disassembler [] = Ok (d, left, lines) -> ds_sym d < 2 ^ 31 -> cleanup d = Ok d' -> listable [] d' ->
  exists out N, quick_disassemble_main fuel disk msg no_file prog (path :: s :: mode :: args) = Ok (out, 0) /\
    forall file fuel', file <> path -> (N <= fuel')%nat -> exists asm,
      quick_assemble_main fuel' (saved file (written_out out) disk) msg no_file prog [path; "-"; file] = Ok (target_lines asm, 0).
Proof.
  intros fuel disk msg no_file prog path s mode args r rs seeds d left lines d' IM RQ A HR MS RUN SY CL LI.
  pose proof (image_bytes_ok _ _ _ IM) as BO. pose proof (requests_seeds _ _ _ _ RQ HR A) as SO.
  destruct (tool_text r seeds fuel msg d left lines MS BO SO RUN SY) as (ls & Q & RL & _).
  destruct (round_trip r seeds fuel msg d left lines d' BO SO RUN SY CL LI) as (text & N & Q' & AS). rewrite Q in Q'. injection Q' as <-.
  exists ls, N. split.
  - apply (main_runs _ _ _ _ _ _ _ _ _ _ _ _ IM RQ HR). exists d, left, lines. split; [exact RUN|]. left. exists d'. split; [exact CL|].
    unfold quick_disassemble in Q. rewrite RUN in Q. cbn [bind] in Q. rewrite CL in Q. cbn [bind] in Q. injection Q as <-. auto.
  - intros file fuel' NE LE. destruct (AS fuel' LE) as (asm & X). exists asm. eapply saved_main; [exact IM|exact NE| |intros e; apply target_head]. rewrite RL. exact X.
Qed.

(** The programs of util on texts that they have printed themselves. *)
From Verif Require Import Base BaseProofs ModelNumeric ModelMnemonic ModelAddress ModelExpr ModelState ModelMap ModelToken ModelInstr ModelStatement ModelParse ModelRanges ModelModule ModelAssembler ModelRom ModelDisasm ModelTools ModelFile ModelInteractive ModelMain
  SpecArith SpecText SpecNames SpecFlags SpecInstr SpecRom SpecAssemble SpecTools SpecSink SpecFile SpecMain RomProofs AssembleProofs SinkProofs PermuteProofs ScanProofs MainProofs.
From Verif Require Import PropertiesAssemble.
Open Scope string_scope.
Open Scope list_scope.
Open Scope Z_scope.

(** ** Comparing. *)
Lemma touched_short : forall w, NoDup (touched w) -> Z.of_nat (List.length (snd w)) <= 2 ^ 16.
Proof.
  intros [a data] N. unfold touched in N. cbn [fst snd] in *. destruct (Z_le_gt_dec (Z.of_nat (List.length data)) (2 ^ 16)) as [L|G]; [exact L|exfalso].
  set (f := fun k : nat => same_bank_plus a (Z.of_nat k)) in N. set (n := List.length data) in *.
  assert (X : (Z.to_nat (2 ^ 16) < n)%nat) by lia.
  assert (NI : forall i j, (i < n)%nat -> (j < n)%nat -> f i = f j -> i = j).
  { intros i j I J E. rewrite (NoDup_nth _ 0) in N. apply (N i j); rewrite ?map_length, ?seq_length; auto.
    rewrite (nth_indep _ 0 (f 0%nat)), (nth_indep (map f (seq 0 n)) 0 (f 0%nat)) by (rewrite map_length, seq_length; assumption).
    rewrite !map_nth, !seq_nth by assumption. exact E. }
  specialize (NI 0%nat (Z.to_nat (2 ^ 16)) ltac:(lia) X). assert (E : f 0%nat = f (Z.to_nat (2 ^ 16))).
  { unfold f, same_bank_plus. rewrite Z2Nat.id by lia. change (Z.of_nat 0) with 0. rewrite Z.add_0_r, <- Z.add_mod_idemp_r by lia. rewrite Z.mod_same by lia. rewrite Z.add_0_r. reflexivity. }
  specialize (NI E). lia.
Qed.
Lemma NoDup_halves : forall A (l l' : list A), NoDup (l ++ l') -> NoDup l /\ NoDup l'.
Proof.
  intros A l l'. induction l as [|x l IH]; cbn; intros N; [split; [constructor|exact N]|]. inversion N; subst. destruct (IH H2). split; [constructor|]; auto. intros I. apply H1, in_or_app. auto.
Qed.
Lemma NoDup_part : forall A B (f : A -> list B) l x, NoDup (flat_map f l) -> In x l -> NoDup (f x).
Proof.
  intros A B f l x N I. induction l as [|y l IH]; [destruct I|]. cbn in N. destruct I as [->|I]; [exact (proj1 (NoDup_halves _ _ _ N))|]. apply IH; [exact (proj2 (NoDup_halves _ _ _ N))|exact I].
Qed.
Lemma write_fits : forall fuel sk files ws a w, assemble fuel sk files = (ws, Ok a) -> In w ws -> addr24 (fst w) /\ Z.of_nat (List.length (snd w)) <= 2 ^ 16.
Proof.
  intros fuel sk files ws a w H I. destruct (C28_no_overlap _ _ _ _ _ H) as [N _]. split.
  - destruct (C43_output _ _ _ _ _ H) as (_ & order & wss & _ & _ & F & ->). apply in_concat in I. destruct I as (rs & R & I).
    clear N H. induction F as [|i rs' order wss (m & _ & W) F IH]; [destruct R|]. destruct R as [->|R]; [|exact (IH R)].
    red in W. clear -W I. induction W as [|l w' ls ws' WL W IH]; [destruct I|]. destruct I as [->|I]; [apply WL|exact (IH I)].
  - apply touched_short. eapply NoDup_part; eassumption.
Qed.
Lemma identity_judges : forall r, judges (identity_sink r).
Proof. intros r ws ws' w. reflexivity. Qed.
(** Every byte written is in the image. *)
Definition agrees (r : rom) (ws : list write) : Prop := forall w k b, In w ws -> nth_byte (snd w) k = Some b -> in_rom r (same_bank_plus (fst w) k) b.
Lemma compared : forall fuel r files ws a, assemble fuel (identity_sink r) files = (ws, Ok a) <-> assemble fuel takes_all files = (ws, Ok a) /\ agrees r ws.
Proof.
  intros fuel r files ws a. rewrite (judged_run _ _ _ _ _ (identity_judges r)). split; intros [H F]; (split; [exact H|]).
  - intros w k b I B. rewrite Forall_forall in F. specialize (F w I). destruct (write_fits _ _ _ _ _ _ H I) as [A L]. apply (identity_exact r (fst w) (snd w) A L); assumption.
  - apply Forall_forall. intros w I. destruct (write_fits _ _ _ _ _ _ H I) as [A L]. apply (identity_exact r (fst w) (snd w) A L). intros k b B. exact (F w k b I B).
Qed.
Lemma assemble_main_eq : forall fuel disk msg no_file prog path p ps r, image_at disk path r ->
  quick_assemble_main fuel disk msg no_file prog (path :: "-" :: p :: ps) =
  match open_files disk no_file (p :: ps) with
  | Exit out c => Ok (out, c)
  | Go files => let* out := quick_assemble fuel msg r true files in let* c := assemble_status fuel r files in Ok (out, c)
  end.
Proof. intros. unfold quick_assemble_main. rewrite (proj1 (image_open disk path r msg no_file "Error loading ROM: ") H). reflexivity. Qed.
Lemma assemble_main_exact : forall fuel disk msg no_file prog path p ps out,
  quick_assemble_main fuel disk msg no_file prog (path :: "-" :: p :: ps) = Ok (out, 0) <->
  exists r files ws a, image_at disk path r /\ files_at disk (p :: ps) files /\ assemble fuel takes_all files = (ws, Ok a) /\ agrees r ws /\ out = target_lines a.
Proof.
  intros fuel disk msg no_file prog path p ps out. split.
  - intros H. assert (IM : exists r, image_at disk path r).
    { unfold quick_assemble_main in H. destruct (open_rom disk msg no_file "Error loading ROM: " path) as [[r|o c]|e|u|] eqn:O; cbn [bind] in H; try discriminate H.
      - exists r. eapply image_open. exact O.
      - injection H as -> ->. exfalso. unfold open_rom in O. destruct (disk path) as [t|]; [destruct (load_rom (bytes_of t))|]; try discriminate O; injection O as _ O; discriminate O. }
    destruct IM as [r IM]. rewrite (assemble_main_eq _ _ _ _ _ _ _ _ _ IM) in H.
    destruct (open_files disk no_file (p :: ps)) as [files|o c] eqn:O.
    + unfold quick_assemble, assemble_status in H. destruct (assemble fuel (identity_sink r) files) as [ws [a|e|u|]] eqn:A; cbn [snd bind] in H; try discriminate H. injection H as <-.
      apply compared in A. exists r, files, ws, a. split; [exact IM|]. split; [eapply files_open; exact O|]. split; [apply A|]. split; [apply A|reflexivity].
    + injection H as -> ->. exfalso. revert O. generalize (p :: ps). induction l as [|q l IH]; cbn [open_files]; [discriminate|].
      destruct (disk q) as [t|]; [|discriminate]. destruct (open_files disk no_file l); [discriminate|]. intros X. injection X as -> ->. apply IH. reflexivity.
  - intros (r & files & ws & a & IM & F & A & AG & ->). rewrite (assemble_main_eq _ _ _ _ _ _ _ _ _ IM). apply (files_open disk no_file) in F. rewrite F.
    unfold quick_assemble, assemble_status. rewrite (proj2 (compared fuel r files ws a) (conj A AG)). reflexivity.
Qed.

(** ** What was printed before. *)
Lemma dec_head : forall d, 0 <= d < 10 -> hex_digit d <> "E"%char.
Proof.
  intros d D. assert (X : d = 0 \/ d = 1 \/ d = 2 \/ d = 3 \/ d = 4 \/ d = 5 \/ d = 6 \/ d = 7 \/ d = 8 \/ d = 9) by lia.
  repeat (destruct X as [->|X]; [discriminate|]). subst d. discriminate.
Qed.
Lemma dec_starts : forall f v, 0 <= v -> exists c s, dec_digits (Datatypes.S f) v = String c s /\ c <> "E"%char.
Proof.
  induction f as [|f IH]; intros v V.
  - cbn [dec_digits]. destruct (Z.ltb_spec v 10); [|cbn [append]]; do 2 eexists; (split; [reflexivity|]); apply dec_head; [lia|]. apply Z.mod_pos_bound. lia.
  - cbn [dec_digits]. destruct (Z.ltb_spec v 10); [do 2 eexists; split; [reflexivity|]; apply dec_head; lia|].
    destruct (IH (v / 10)) as (c & s & E & N); [apply Z.div_pos; lia|]. cbn [dec_digits] in E. rewrite E. cbn [append]. eauto.
Qed.
Lemma target_head : forall a (msg : err -> string) e, target_lines a <> ["Error assembling: " ++ msg e]%string.
Proof.
  intros a msg e E. unfold target_lines in E. cbv zeta in E. injection E as E _. unfold dec_string in E. destruct (Z.ltb_spec (zlen (jump_targets a)) 0) as [L|G]; [unfold zlen in L; lia|].
  destruct (dec_starts 19 (zlen (jump_targets a)) G) as (c & s & D & N). rewrite D in E. cbn in E. injection E as E _. contradiction.
Qed.
Lemma accepted : forall fuel msg r files out, quick_assemble fuel msg r true files = Ok out -> (forall e, out <> ["Error assembling: " ++ msg e]%string) -> assemble_status fuel r files = Ok 0.
Proof.
  intros fuel msg r files out H N. unfold quick_assemble, assemble_status in *. destruct (snd (assemble fuel (identity_sink r) files)) as [a|e|u|]; try discriminate H; [reflexivity|].
  injection H as <-. destruct (N e eq_refl).
Qed.
Lemma saved_main : forall fuel disk msg no_file prog path r file text out, image_at disk path r -> file <> path ->
  quick_assemble fuel msg r true [read_lines text] = Ok out -> (forall e, out <> ["Error assembling: " ++ msg e]%string) ->
  quick_assemble_main fuel (saved file text disk) msg no_file prog [path; "-"; file] = Ok (out, 0).
Proof.
  intros fuel disk msg no_file prog path r file text out IM NE Q N.
  assert (IM' : image_at (saved file text disk) path r).
  { destruct IM as (t & l & D & B & L). exists t, l. split; [|auto]. unfold saved. destruct (String.eqb_spec path file) as [E|_]; [congruence|exact D]. }
  rewrite (assemble_main_eq _ _ _ _ _ _ _ _ _ IM'). cbn [open_files]. unfold saved at 1. rewrite String.eqb_refl. rewrite Q. cbn [bind]. rewrite (accepted _ _ _ _ _ Q N). reflexivity.
Qed.

(** ** Dumps. *)
Lemma optional_iff : forall deflt arg v, optional deflt arg v <-> optional_arg deflt arg = Ok (Some v).
Proof.
  intros deflt [s|] v; cbn [optional optional_arg].
  - assert (R : forall v, - 2 ^ 31 <= v < 2 ^ 31 <-> int_min <= v <= int_max) by (intros; unfold int_min, int_max; lia).
    destruct (dec_exact s) as (X1 & X2 & X3 & X4). split.
    + intros [[S ->]|[N V]]; [rewrite (proj2 X2 S); reflexivity|]. rewrite (proj2 (X1 v)); [reflexivity|]. split; [exact N|apply R; exact V].
    + intros H. destruct (scan_dec s) as [[w| |]|e|u|] eqn:E; cbn in H; try discriminate H; injection H as ->.
      * right. destruct (proj1 (X1 v) eq_refl) as [N V]. split; [exact N|apply R; exact V].
      * left. split; [apply X2; reflexivity|reflexivity].
  - split; [intros ->; reflexivity|intros H; injection H as ->; reflexivity].
Qed.
Lemma dump_main_exact : forall disk msg no_file prog path s c more out,
  quick_dump_main disk msg no_file prog (path :: s :: c :: more) = Ok (out, 0) <->
  exists r start count stride per_line, image_at disk path r /\ number 16 s start /\ 0 <= start < 2 ^ 32 /\ number 10 c count /\ - 2 ^ 31 <= count < 2 ^ 31 /\
    optional 1 (nth_error more 0) stride /\ optional 8 (nth_error more 1) per_line /\ quick_dump (rom_read r) start count stride per_line = Ok out.
Proof.
  intros disk msg no_file prog path s c more out. destruct (hex_exact s) as (S1 & _). destruct (dec_exact c) as (C1 & _). split.
  - intros H. unfold quick_dump_main in H. destruct (open_rom disk msg no_file "" path) as [[r|o k]|e|u|] eqn:O; cbn [bind] in H; try discriminate H.
    2:{ injection H as -> ->. exfalso. unfold open_rom in O. destruct (disk path) as [t|]; [destruct (load_rom (bytes_of t))|]; try discriminate O; injection O as _ O; discriminate O. }
    destruct (scan_hex s) as [[start| |]|e|u|] eqn:ES; cbn [scanned bind] in H; try discriminate H. destruct (scan_dec c) as [[count| |]|e|u|] eqn:EC; cbn [scanned bind] in H; try discriminate H.
    destruct (optional_arg 1 (nth_error more 0)) as [[stride|]|e|u|] eqn:E1; cbn [bind] in H; try discriminate H.
    destruct (optional_arg 8 (nth_error more 1)) as [[per|]|e|u|] eqn:E2; cbn [bind] in H; try discriminate H.
    destruct (quick_dump (rom_read r) start count stride per) as [o|e|u|] eqn:Q; cbn [bind] in H; try discriminate H. injection H as <-.
    destruct (proj1 (S1 start) eq_refl) as [N V]. destruct (proj1 (C1 count) eq_refl) as [N2 V2]. exists r, start, count, stride, per.
    split; [eapply image_open; exact O|]. split; [exact N|]. split; [lia|]. split; [exact N2|]. split; [unfold int_min, int_max in V2; lia|]. split; [apply optional_iff; exact E1|]. split; [apply optional_iff; exact E2|exact Q].
  - intros (r & start & count & stride & per & IM & N & V & N2 & V2 & O1 & O2 & Q). unfold quick_dump_main. rewrite (proj1 (image_open disk path r msg no_file "") IM). cbn [bind].
    rewrite (proj2 (S1 start)) by (split; [exact N|lia]). cbn [scanned bind]. rewrite (proj2 (C1 count)) by (split; [exact N2|unfold int_min, int_max; lia]). cbn [scanned bind].
    apply optional_iff in O1. apply optional_iff in O2. rewrite O1. cbn [bind]. rewrite O2. cbn [bind]. rewrite Q. reflexivity.
Qed.

(** ** Sessions. *)
Lemma print_written : forall ls, print_lines ls = written_out ls.
Proof. induction ls as [|l ls IH]; [reflexivity|]. cbn [print_lines written_out]. rewrite IH. reflexivity. Qed.
Lemma prompts_iff : forall msg ls out, prompts msg (ls ++ [""]) = Ok out <-> exists answers, Forall2 (fun l a => answer msg l = Ok a) ls answers /\ out = session_text answers.
Proof.
  intros msg. induction ls as [|l ls IH]; intros out; cbn [app prompts].
  - assert (E : answer msg "" = Ok []) by reflexivity. rewrite E. cbn [bind print_lines append]. split; [intros H; injection H as <-; exists []; split; [constructor|reflexivity]|].
    intros (answers & F & ->). inversion F. reflexivity.
  - destruct (answer msg l) as [a|e|u|] eqn:A; cbn [bind]; try (split; [discriminate|intros (answers & F & _); inversion F; congruence]).
    destruct (prompts msg (ls ++ [""])) as [rest|e|u|] eqn:P; cbn [bind].
    + split.
      * intros H. injection H as <-. destruct (proj1 (IH rest) eq_refl) as (answers & F & ->). exists (a :: answers). split; [constructor; assumption|]. cbn [session_text]. rewrite print_written. reflexivity.
      * intros (answers & F & ->). inversion F as [|l' a' ls' as' A' F']; subst. rewrite A in A'. injection A' as ->. assert (X : Ok rest = Ok (session_text as')) by (apply IH; eauto). injection X as ->. cbn [session_text]. rewrite print_written. reflexivity.
    + split; [discriminate|]. intros (answers & F & ->). inversion F as [|l' a' ls' as' A' F']; subst. assert (X : @Err string e = Ok (session_text as')) by (apply IH; eauto). discriminate X.
    + split; [discriminate|]. intros (answers & F & ->). inversion F as [|l' a' ls' as' A' F']; subst. assert (X : @UB string u = Ok (session_text as')) by (apply IH; eauto). discriminate X.
    + split; [discriminate|]. intros (answers & F & ->). inversion F as [|l' a' ls' as' A' F']; subst. assert (X : @OutOfFuel string = Ok (session_text as')) by (apply IH; eauto). discriminate X.
Qed.

(** ** Round trips. *)
From Verif Require Import ToolProofs TextProofs TokenProofs ParseProofs SpecState SpecListing SpecDump DumpProofs FileProofs FileTextProofs ShowProofs SpecShow DisCases PrintProofs.
Lemma dump_again : forall disk msg no_file prog path s c more out r start count stride per_line file fuel, image_at disk path r ->
  number 16 s start -> addr24 start -> number 10 c count -> optional 1 (nth_error more 0) stride -> optional 8 (nth_error more 1) per_line -> dump_size count stride <= 2 ^ 16 -> file <> path ->
  quick_dump_main disk msg no_file prog (path :: s :: c :: more) = Ok (out, 0) ->
  quick_assemble_main fuel (saved file (written_out out) disk) msg no_file prog [path; "-"; file] = Ok (["0 jump targets found"], 0).
Proof.
  intros disk msg no_file prog path s c more out r start count stride per file fuel IM N A N2 O1 O2 SZ NE H. apply dump_main_exact in H.
  destruct H as (r' & start' & count' & stride' & per' & IM' & N' & _ & N2' & _ & O1' & O2' & Q).
  rewrite (number_unique _ _ _ _ hex_known N' N) in Q. rewrite (number_unique _ _ _ _ dec_known N2' N2) in Q.
  apply optional_iff in O1. apply optional_iff in O1'. rewrite O1 in O1'. injection O1' as <-. apply optional_iff in O2. apply optional_iff in O2'. rewrite O2 in O2'. injection O2' as <-.
  apply image_iff in IM. destruct IM as (t & D & L). pose proof (proj1 (image_iff _ _ _) IM') as (t' & D' & L'). rewrite D in D'. injection D' as <-. rewrite L in L'. injection L' as <-.
  eapply saved_main; [exact IM'|exact NE| |intros e; discriminate].
  destruct (dump_text r start count stride per out fuel msg A (image_bytes_ok _ _ _ IM') SZ Q) as [X _]. exact X.
Qed.
Lemma documented_consistent : forall s f, mode_named s f -> consistent f.
Proof.
  intros s f (n & I & _). apply consistent_ok. revert n f I. assert (X : forallb (fun nf => consistent_b (snd nf)) documented_flags = true) by (vm_compute; reflexivity).
  intros n f I. exact (proj1 (forallb_forall _ _) X _ I).
Qed.
Lemma requests_consistent : forall r args rs, requests r args rs -> forall a f, In (a, f) rs -> consistent f.
Proof.
  intros r args rs H. induction H as [|s|s mode b g args rs A M H IH]; intros a f I; [destruct I|destruct I|]. destruct I as [E|I]; [injection E as <- <-; eapply documented_consistent; exact M|eapply IH; exact I].
Qed.
Lemma requests_seeds : forall r args rs seeds, requests r args rs -> holds_requests seeds rs -> (forall a f, In (a, f) rs -> addr24 a) -> seeds_ok seeds.
Proof.
  intros r args rs seeds RQ [_ HR] A a f I. apply HR in I. destruct I as (l & l' & -> & _). assert (J : In (a, f) (l ++ (a, f) :: l')) by (apply in_or_app; right; left; reflexivity).
  split; [exact (A _ _ J)|eapply requests_consistent; eassumption].
Qed.
Lemma listing_again : forall fuel disk msg no_file prog path s mode args out c r rs seeds d left lines,
  image_at disk path r -> requests r (s :: mode :: args) rs -> (forall a f, In (a, f) rs -> addr24 a) -> holds_requests seeds rs -> (forall e, one_line (msg e)) ->
  run_passes 100 fuel msg (rom_read r) seeds new_disassembler [] = Ok (d, left, lines) -> ds_sym d < 2 ^ 31 ->
  quick_disassemble_main fuel disk msg no_file prog (path :: s :: mode :: args) = Ok (out, c) ->
  c = 0 /\ forall file fuel' ws asm, file <> path -> assemble fuel' takes_all [read_lines (written_out out)] = (ws, Ok asm) ->
    quick_assemble_main fuel' (saved file (written_out out) disk) msg no_file prog [path; "-"; file] = Ok (target_lines asm, 0).
Proof.
  intros fuel disk msg no_file prog path s mode args out c r rs seeds d left lines IM RQ A HR MS RUN SY H.
  pose proof (requests_seeds _ _ _ _ RQ HR A) as SO. destruct (tool_text r seeds fuel msg d left lines MS (image_bytes_ok _ _ _ IM) SO RUN SY) as (ls & Q & _ & T).
  apply (main_runs _ _ _ _ _ _ _ _ _ _ _ _ IM RQ HR) in H. destruct H as (d0 & l0 & ls0 & RUN' & H). rewrite RUN in RUN'. injection RUN' as <- <- <-.
  unfold quick_disassemble in Q. rewrite RUN in Q. cbn [bind] in Q.
  destruct (ToolProofs.tool r seeds fuel msg d left lines (image_bytes_ok _ _ _ IM) SO RUN SY) as (d1 & CL & _).
  destruct H as [(d' & CL' & -> & ->)|(e & CL' & _)]; [|rewrite CL in CL'; discriminate CL']. rewrite CL' in Q. injection Q as <-. split; [reflexivity|].
  intros file fuel' ws asm NE AS. eapply saved_main; [exact IM|exact NE| |intros e; apply target_head]. exact (proj1 (T fuel' ws asm AS)).
Qed.
Lemma session_exact : forall msg t ls out, has_lines t ls -> (interactive_parse msg t = Ok out <-> exists answers, Forall2 (fun l a => answer msg l = Ok a) ls answers /\ out = session_text answers).
Proof. intros msg t ls out H. apply lines_exact in H. unfold interactive_parse. rewrite H. apply prompts_iff. Qed.
Lemma printed_number : forall a, addr24 a -> number 16 (hex_fixed 6 a) a.
Proof.
  intros a A. exists "", "", 1, "", (hex_fixed 6 a), 6, a, "". rewrite TokenProofs.sapp_nil_r.
  split; [reflexivity|]. split; [intros [|? ?] ? ? E; discriminate E|]. split; [left; auto|]. split; [left; split; [reflexivity|discriminate]|].
  split; [exact (hex_numeral 6 a A)|]. split; [lia|]. split; [intros ? ? ? E; discriminate E|lia].
Qed.
Lemma dollar_number : forall base s v, known_base base -> ~ number base (String "$" s) v.
Proof.
  intros base s v KB N. apply number_iff in N; [|exact KB]. destruct N as (_ & a & (ds & n & rest & E & N & P & _) & _).
  pose proof (numeral_head _ _ _ _ rest KB N P) as HD. rewrite <- E in HD. unfold inner in HD. cbn in HD. destruct (base =? 16); cbn in HD; unfold digit_test in HD; destruct KB as [->|[->| ->]]; discriminate HD.
Qed.
Lemma hex_limits : forall s, (forall v, scan_hex s = Ok (Scanned v) <-> number 16 s v /\ 0 <= v < 2 ^ 32) /\
  (scan_hex s = Ok Ended <-> spaces s) /\ (scan_hex s = Ok Mismatch <-> ~ spaces s /\ forall v, ~ number 16 s v) /\
  (scan_hex s = UB UB_overflow <-> exists v, number 16 s v /\ ~ 0 <= v < 2 ^ 32).
Proof.
  intros s. assert (R : forall v, 0 <= v < 2 ^ 32 <-> 0 <= v <= 0xffffffff) by (intros; lia). destruct (hex_exact s) as (A & B & C & D). split; [|split; [exact B|split; [exact C|]]].
  - intros v. rewrite R. apply A.
  - rewrite D. split; intros (v & N & X); exists v; (split; [exact N|]); rewrite R in *; exact X.
Qed.
Lemma dec_limits : forall s, (forall v, scan_dec s = Ok (Scanned v) <-> number 10 s v /\ - 2 ^ 31 <= v < 2 ^ 31) /\
  (scan_dec s = Ok Ended <-> spaces s) /\ (scan_dec s = Ok Mismatch <-> ~ spaces s /\ forall v, ~ number 10 s v) /\
  (scan_dec s = UB UB_overflow <-> exists v, number 10 s v /\ ~ - 2 ^ 31 <= v < 2 ^ 31).
Proof.
  intros s. assert (R : forall v, - 2 ^ 31 <= v < 2 ^ 31 <-> int_min <= v <= int_max) by (intros; unfold int_min, int_max; lia). destruct (dec_exact s) as (A & B & C & D). split; [|split; [exact B|split; [exact C|]]].
  - intros v. rewrite R. apply A.
  - rewrite D. split; intros (v & N & X); exists v; (split; [exact N|]); rewrite R in *; exact X.
Qed.
Lemma dollar_mismatch : forall a, scan_hex (address_to_string a) = Ok Mismatch.
Proof.
  intros a. apply hex_limits. unfold address_to_string. split.
  - intros S. specialize (S "" "$"%char (hex_fixed 6 a) eq_refl). discriminate S.
  - intros v. apply dollar_number, hex_known.
Qed.
Lemma requests_map : forall rs, exists seeds, holds_requests seeds rs /\ forall m, holds_requests m rs -> m = seeds.
Proof. intros rs. exists (insert_all rs []). split; [apply holds_iff; reflexivity|]. intros m H. apply holds_iff. exact H. Qed.
Lemma main_no_image : forall fuel disk msg no_file prog path s mode args, disk path = None ->
  quick_disassemble_main fuel disk msg no_file prog (path :: s :: mode :: args) = Ok ([no_file path], 1).
Proof. intros. unfold quick_disassemble_main, open_rom. rewrite H. reflexivity. Qed.
Lemma main_usage : forall fuel disk msg no_file prog args, (List.length args < 3)%nat -> quick_disassemble_main fuel disk msg no_file prog args = Ok (disassemble_usage prog, 0).
Proof. intros fuel disk msg no_file prog [|a [|b [|c args]]] H; try reflexivity. cbn in H. lia. Qed.
Definition disk_image (disk : string -> option string) (path : string) : option rom :=
  match disk path with Some t => match load_rom (bytes_of t) with Ok r => Some r | _ => None end | None => None end.
Lemma disk_image_at : forall disk path r, disk_image disk path = Some r -> image_at disk path r.
Proof. intros disk path r H. apply image_iff. unfold disk_image in H. destruct (disk path) as [t|]; [|discriminate H]. destruct (load_rom (bytes_of t)) as [r'|e|u|] eqn:L; try discriminate H. injection H as ->. eauto. Qed.
Lemma asked_plain : forall r s v, scan_hex s = Ok (Scanned v) -> 0 <= v <= 2 ^ 24 -> text_of s = (false, s) -> asked r s v.
Proof.
  intros r s v H V T. apply hex_exact in H. destruct H as [N _]. exists s, false, v. split; [apply text_iff; exact T|]. split; [exact N|]. split; [exact V|reflexivity].
Qed.
Lemma mode_is : forall s f, flags_from_name s = Some f -> mode_named s f.
Proof. intros s f H. apply NameProofs.flags_from_name_iff. exact H. Qed.
Lemma assemble_usage_exit : forall fuel disk msg no_file prog args, (List.length args < 3)%nat -> quick_assemble_main fuel disk msg no_file prog args = Ok (assemble_usage prog, 0).
Proof. intros fuel disk msg no_file prog [|a [|b [|c args]]] H; try reflexivity. cbn in H. lia. Qed.
(** absl::EndsWith. *)
Lemma substring_all : forall s m, (String.length s <= m)%nat -> substring 0 m s = s.
Proof. induction s as [|c s IH]; intros [|m] H; cbn in *; try reflexivity; [lia|]. rewrite IH by lia. reflexivity. Qed.
Lemma substring_back : forall s n m, (String.length s <= n + m)%nat -> exists p, s = (p ++ substring n m s)%string.
Proof.
  induction s as [|c s IH]; intros [|n] m H.
  - exists "". destruct m; reflexivity.
  - exists "". reflexivity.
  - exists "". rewrite substring_all by exact H. reflexivity.
  - cbn in H. destruct (IH n m) as [p E]; [lia|]. exists (String c p). cbn [substring append]. rewrite E at 1. reflexivity.
Qed.
Lemma substring_after : forall p x, substring (String.length p) (String.length x) (p ++ x)%string = x.
Proof. induction p as [|c p IH]; intros x; [apply substring_all; reflexivity|apply IH]. Qed.
Lemma append_len : forall p x, String.length (p ++ x)%string = (String.length p + String.length x)%nat.
Proof. induction p as [|c p IH]; intros x; [reflexivity|]. cbn. rewrite IH. reflexivity. Qed.
Lemma ends_with_iff : forall x s, ends_with x s = true <-> exists p, s = (p ++ x)%string.
Proof.
  intros x s. unfold ends_with. rewrite String.eqb_eq. split.
  - intros E. destruct (substring_back s (String.length s - String.length x) (String.length x)) as [p P]; [lia|]. exists p. rewrite E in P. exact P.
  - intros [p ->]. rewrite append_len. replace (String.length p + String.length x - String.length x)%nat with (String.length p) by lia. apply substring_after.
Qed.
Lemma overwriting_fails : forall fuel disk msg no_file prog path output p ps r, image_at disk path r -> output <> "-"%string -> (forall s, output <> (s ++ ".asm")%string) ->
  exists u, quick_assemble_main fuel disk msg no_file prog (path :: output :: p :: ps) = UB u.
Proof.
  intros fuel disk msg no_file prog path output p ps r IM NE EW. unfold quick_assemble_main. rewrite (proj1 (image_open disk path r msg no_file "Error loading ROM: ") IM). cbn [bind].
  destruct (ends_with ".asm" output) eqn:W; [exfalso; apply ends_with_iff in W; destruct W as [s W]; exact (EW s W)|].
  destruct (String.eqb_spec output "-") as [E|_]; [contradiction|]. unfold quick_assemble. rewrite overwriter_never. cbn [bind]. eauto.
Qed.
Lemma source_spared : forall fuel disk msg no_file prog path s p ps r, image_at disk path r ->
  quick_assemble_main fuel disk msg no_file prog (path :: (s ++ ".asm")%string :: p :: ps) = Ok ([("Error: " ++ (s ++ ".asm") ++ " given as output path")%string], 1).
Proof.
  intros fuel disk msg no_file prog path s p ps r IM. unfold quick_assemble_main. rewrite (proj1 (image_open disk path r msg no_file "Error loading ROM: ") IM). cbn [bind].
  rewrite (proj2 (ends_with_iff ".asm" (s ++ ".asm"))) by (exists s; reflexivity). reflexivity.
Qed.
(** ** What is reported. *)
Lemma files_missing : forall disk no_file paths q, missing_file disk paths q -> open_files disk no_file paths = Exit [("Error loading file: " ++ no_file q)%string] 1.
Proof.
  intros disk no_file paths q (before & after & -> & B & N). induction before as [|x before IH]; cbn [app open_files]; [rewrite N; reflexivity|].
  destruct (disk x) as [t|] eqn:D; [|destruct (B x (or_introl eq_refl) D)]. rewrite IH; [reflexivity|]. intros y IN. apply B. right. exact IN.
Qed.
Lemma files_cases : forall disk paths, (exists files, files_at disk paths files) \/ exists q, missing_file disk paths q.
Proof.
  intros disk. induction paths as [|x paths IH]; [left; exists []; constructor|]. destruct (disk x) as [t|] eqn:D.
  - destruct IH as [[files F]|(q & before & after & -> & B & N)].
    + left. destruct (open_files disk (fun s => s) (x :: paths)) as [fs|o c] eqn:O; [exists fs; eapply files_open; exact O|]. exfalso. cbn [open_files] in O. rewrite D in O.
      rewrite (proj1 (files_open disk (fun s => s) paths files) F) in O. discriminate O.
    + right. exists q, (x :: before), after. split; [reflexivity|]. split; [|exact N]. intros y [<-|IN]; [rewrite D; discriminate|exact (B y IN)].
  - right. exists x, [], paths. split; [reflexivity|]. split; [intros y []|exact D].
Qed.
Lemma compare_reports : forall fuel disk msg no_file prog path p ps,
  (disk path = None -> quick_assemble_main fuel disk msg no_file prog (path :: "-" :: p :: ps) = Ok ([("Error loading ROM: " ++ no_file path)%string], 1)) /\
  (forall r q, image_at disk path r -> missing_file disk (p :: ps) q ->
     quick_assemble_main fuel disk msg no_file prog (path :: "-" :: p :: ps) = Ok ([("Error loading file: " ++ no_file q)%string], 1)) /\
  (forall r files ws e, image_at disk path r -> files_at disk (p :: ps) files -> assemble fuel (identity_sink r) files = (ws, Err e) ->
     quick_assemble_main fuel disk msg no_file prog (path :: "-" :: p :: ps) = Ok ([("Error assembling: " ++ msg e)%string], 1)).
Proof.
  intros fuel disk msg no_file prog path p ps. split; [|split].
  - intros N. unfold quick_assemble_main, open_rom. rewrite N. reflexivity.
  - intros r q IM MF. rewrite (assemble_main_eq _ _ _ _ _ _ _ _ _ IM), (files_missing _ no_file _ _ MF). reflexivity.
  - intros r files ws e IM F A. rewrite (assemble_main_eq _ _ _ _ _ _ _ _ _ IM). apply (files_open disk no_file) in F. rewrite F. unfold quick_assemble, assemble_status. rewrite A. reflexivity.
Qed.
(** ** disassemble_more. *)
Lemma more_main_eq : forall fuel disk msg no_file prog path p ps r, image_at disk path r ->
  disassemble_more_main fuel disk msg no_file prog (path :: p :: ps) =
  match open_files disk no_file (p :: ps) with
  | Exit out c => Ok (out, c)
  | Go files => let* out := disassemble_more fuel msg r files in let* c := more_status fuel msg r files in Ok (out, c)
  end.
Proof. intros. unfold disassemble_more_main. rewrite (proj1 (image_open disk path r msg no_file "Error loading ROM: ") H). reflexivity. Qed.
Lemma more_reports : forall fuel disk msg no_file prog path p ps,
  (disk path = None -> disassemble_more_main fuel disk msg no_file prog (path :: p :: ps) = Ok ([("Error loading ROM: " ++ no_file path)%string], 1)) /\
  (forall r q, image_at disk path r -> missing_file disk (p :: ps) q ->
     disassemble_more_main fuel disk msg no_file prog (path :: p :: ps) = Ok ([("Error loading file: " ++ no_file q)%string], 1)) /\
  (forall r files ws e, image_at disk path r -> files_at disk (p :: ps) files -> assemble fuel (identity_sink r) files = (ws, Err e) ->
     disassemble_more_main fuel disk msg no_file prog (path :: p :: ps) = Ok ([("Error assembling: " ++ msg e)%string], 1)).
Proof.
  intros fuel disk msg no_file prog path p ps. split; [|split].
  - intros N. unfold disassemble_more_main, open_rom. rewrite N. reflexivity.
  - intros r q IM MF. rewrite (more_main_eq _ _ _ _ _ _ _ _ _ IM), (files_missing _ no_file _ _ MF). reflexivity.
  - intros r files ws e IM F A. rewrite (more_main_eq _ _ _ _ _ _ _ _ _ IM). apply (files_open disk no_file) in F. rewrite F. unfold disassemble_more, more_status. rewrite A. reflexivity.
Qed.
Lemma more_ends : forall fuel disk msg no_file prog path p ps r files ws a, image_at disk path r -> files_at disk (p :: ps) files ->
  assemble (Datatypes.S fuel) takes_all files = (ws, Ok a) -> agrees r ws ->
  disassemble_more_main (Datatypes.S fuel) disk msg no_file prog (path :: p :: ps) =
  match jump_targets a with [] => Ok (["; Disassembled no instructions."%string], 0) | _ => UB UB_null end.
Proof.
  intros fuel disk msg no_file prog path p ps r files ws a IM F A AG. rewrite (more_main_eq _ _ _ _ _ _ _ _ _ IM). apply (files_open disk no_file) in F. rewrite F.
  pose proof (proj2 (compared (Datatypes.S fuel) r files ws a) (conj A AG)) as C. rewrite (more_does_nothing fuel msg r files ws a C).
  destruct (jump_targets a) as [|tf l] eqn:J; [|reflexivity]. cbn [bind]. unfold more_status. rewrite C. cbn [snd]. rewrite J, more_empty. reflexivity.
Qed.
Lemma more_main_exact : forall fuel disk msg no_file prog path p ps out,
  disassemble_more_main (Datatypes.S fuel) disk msg no_file prog (path :: p :: ps) = Ok (out, 0) <->
  exists r files ws a, image_at disk path r /\ files_at disk (p :: ps) files /\ assemble (Datatypes.S fuel) takes_all files = (ws, Ok a) /\ agrees r ws /\
    jump_targets a = [] /\ out = ["; Disassembled no instructions."%string].
Proof.
  intros fuel disk msg no_file prog path p ps out. split.
  - intros H. assert (IM : exists r, image_at disk path r).
    { unfold disassemble_more_main in H. destruct (open_rom disk msg no_file "Error loading ROM: " path) as [[r|o c]|e|u|] eqn:O; cbn [bind] in H; try discriminate H.
      - exists r. eapply image_open. exact O.
      - injection H as -> ->. exfalso. unfold open_rom in O. destruct (disk path) as [t|]; [destruct (load_rom (bytes_of t))|]; try discriminate O; injection O as _ O; discriminate O. }
    destruct IM as [r IM]. destruct (more_reports (Datatypes.S fuel) disk msg no_file prog path p ps) as (_ & MF & AE).
    destruct (files_cases disk (p :: ps)) as [[files F]|[q Q]]; [|rewrite (MF r q IM Q) in H; discriminate H].
    destruct (assemble (Datatypes.S fuel) (identity_sink r) files) as [ws [a|e|u|]] eqn:A.
    + apply compared in A. destruct A as [A AG]. exists r, files, ws, a. rewrite (more_ends fuel disk msg no_file prog path p ps r files ws a IM F A AG) in H.
      destruct (jump_targets a); [injection H as <-|discriminate H]. repeat (split; [assumption|]). auto.
    + rewrite (AE r files ws e IM F A) in H. discriminate H.
    + exfalso. rewrite (more_main_eq _ _ _ _ _ _ _ _ _ IM) in H. apply (files_open disk no_file) in F. rewrite F in H. unfold disassemble_more in H. rewrite A in H. discriminate H.
    + exfalso. rewrite (more_main_eq _ _ _ _ _ _ _ _ _ IM) in H. apply (files_open disk no_file) in F. rewrite F in H. unfold disassemble_more in H. rewrite A in H. discriminate H.
  - intros (r & files & ws & a & IM & F & A & AG & J & ->). rewrite (more_ends fuel disk msg no_file prog path p ps r files ws a IM F A AG), J. reflexivity.
Qed.
Lemma more_usage_exit : forall fuel disk msg no_file prog args, (List.length args < 2)%nat -> disassemble_more_main fuel disk msg no_file prog args = Ok (more_usage prog, 0).
Proof. intros fuel disk msg no_file prog [|a [|b args]] H; try reflexivity. cbn in H. lia. Qed.
Lemma assemble_main_status : forall fuel disk msg no_file prog args out c, quick_assemble_main fuel disk msg no_file prog args = Ok (out, c) -> c = 0 \/ c = 1.
Proof.
  intros fuel disk msg no_file prog args out c H. unfold quick_assemble_main in H. destruct args as [|path [|output [|p ps]]]; try (injection H as _ <-; auto).
  destruct (open_rom disk msg no_file "Error loading ROM: " path) as [[r|o k]|e|u|] eqn:O; cbn [bind] in H; try discriminate H.
  2:{ injection H as _ <-. unfold open_rom in O. destruct (disk path) as [t|]; [destruct (load_rom (bytes_of t))|]; try discriminate O; injection O as _ <-; auto. }
  destruct (ends_with ".asm" output); [injection H as _ <-; auto|]. destruct (String.eqb output "-").
  - destruct (open_files disk no_file (p :: ps)) as [files|o k] eqn:F.
    + destruct (quick_assemble fuel msg r true files) as [o|e|u|]; cbn [bind] in H; try discriminate H. unfold assemble_status in H.
      destruct (snd (assemble fuel (identity_sink r) files)); cbn [bind] in H; try discriminate H; injection H as _ <-; auto.
    + injection H as _ <-. clear -F. revert F. generalize (p :: ps). induction l as [|q l IH]; cbn [open_files]; [discriminate|]. destruct (disk q); [|intros X; injection X as _ <-; auto].
      destruct (open_files disk no_file l); [discriminate|]. intros X. injection X as -> ->. apply IH. reflexivity.
  - destruct (quick_assemble fuel msg r false []) as [o|e|u|]; cbn [bind] in H; try discriminate H. injection H as _ <-. auto.
Qed.
Lemma main_agrees : forall fuel disk msg no_file prog path p ps out,
  quick_assemble_main fuel disk msg no_file prog (path :: "-" :: p :: ps) = Ok (out, 0) <->
  exists r files ws a, image_at disk path r /\ files_at disk (p :: ps) files /\ assemble fuel takes_all files = (ws, Ok a) /\
    (forall w k b, In w ws -> nth_byte (snd w) k = Some b -> in_rom r (same_bank_plus (fst w) k) b) /\ out = target_lines a.
Proof. exact assemble_main_exact. Qed.
Lemma session_safe : forall msg t ls, has_lines t ls ->
  (exists out, interactive_parse msg t = Ok out) \/
  (interactive_parse msg t = UB UB_overflow /\ exists l ts, In l ls /\ tokenize l = Ok ts /\ overflowing_operand ts).
Proof.
  intros msg t ls H. apply lines_exact in H. unfold interactive_parse. rewrite H. clear H. induction ls as [|l ls IH]; [left; eexists; reflexivity|]. cbn [app prompts].
  assert (A : (exists a, answer msg l = Ok a) \/ (answer msg l = UB UB_overflow /\ exists ts, tokenize l = Ok ts /\ overflowing_operand ts)).
  { unfold answer. destruct (tokenize_shape l) as [(body & T & NE)|(e & ->)]; [|left; eauto]. rewrite T.
    pose proof (parse_safe (body ++ [TEol])) as P. destruct (parse (body ++ [TEol])) as [x|e|u|].
    - left. eauto.
    - left. eauto.
    - right. destruct P as [-> O]; [exists body; auto|]. eauto.
    - destruct P. exists body. auto. }
  destruct A as [(a & ->)|(-> & ts & T & O)]; [|right; split; [reflexivity|]; exists l, ts; split; [left; reflexivity|auto]]. cbn [bind].
  destruct IH as [(out & ->)|(-> & l' & ts & I & T & O)]; [left; eexists; reflexivity|right; split; [reflexivity|]; exists l', ts; split; [right; exact I|auto]].
Qed.
Lemma expr_flat : forall e, ShowProofs.expr_ok e -> flat (expr_to_string e).
Proof.
  induction e as [v t|[m n] t|op l IHl r IHr|op a IH|n l]; intros H; cbn [ShowProofs.expr_ok fi_name fi_module] in H.
  - apply lit_flat.
  - destruct H as (_ & N & M). cbn [expr_to_string]. apply flat_app; [destruct (ntype_eqb t T_long); reflexivity|]. unfold fullid_to_string. cbn [fi_name fi_module].
    destruct m as [m|]; [|apply ident_flat; exact N]. apply flat_app; [destruct M as [->|M]; [reflexivity|apply ident_flat; exact M]|]. apply flat_app; [reflexivity|apply ident_flat; exact N].
  - destruct H as [L R]. cbn [expr_to_string]. repeat (apply flat_app; [first [reflexivity|apply IHl; exact L|apply IHr; exact R|destruct op; reflexivity]|]). reflexivity.
  - cbn [expr_to_string]. repeat (apply flat_app; [first [reflexivity|apply IH; exact H|destruct op; reflexivity]|]). reflexivity.
  - destruct H.
Qed.
Lemma shaped_flat : forall s a b, ShowProofs.shaped s a b -> arg_flat a /\ arg_flat b.
Proof.
  intros s a b H. unfold arg_flat.
  assert (X : forall e, ShowProofs.expr_ok e -> flat (expr_opt_to_string (Some e))) by exact expr_flat.
  assert (Y : flat (expr_opt_to_string None)) by reflexivity.
  destruct s; cbn in H; decompose [and ex] H; subst; split; auto.
Qed.
Lemma strings_flat : forall l, Forall ShowProofs.expr_ok l -> flat (str_join ", " (map expr_to_string l)).
Proof.
  intros l F. induction F as [|e l E F IH]; [reflexivity|]. cbn [map str_join]. destruct (map expr_to_string l); [apply expr_flat; exact E|].
  apply flat_app; [apply expr_flat; exact E|]. apply flat_app; [reflexivity|exact IH].
Qed.
Lemma name_flat : forall f, flat (flags_to_name f).
Proof. intros [e m x c]. destruct e, m, x; reflexivity. Qed.
Lemma directive_flat : forall d, ShowProofs.dir_ok d -> flat (directive_to_string d).
Proof.
  intros d H. unfold ShowProofs.dir_ok in H. unfold directive_to_string. assert (N : flat (dir_to_string (d_name d))) by (destruct (d_name d); reflexivity).
  destruct (directive_type_by_name (d_name d)); [exact N|..];
  repeat (apply flat_app; [first [exact N|reflexivity|apply name_flat|destruct H as (e & -> & E & _); apply (expr_flat e E)|destruct H as (e & -> & E); apply (expr_flat e E)]|]);
  first [apply ret_flat|apply name_flat|destruct H as (e & -> & E & _); apply (expr_flat e E)|apply strings_flat; apply H].
Qed.
Lemma entity_one_line : forall line l p, read_as line l -> In p l -> one_line (entity_line p).
Proof.
  intros line l p R I. pose proof (ShowProofs.line_parsed _ _ R) as F. rewrite Forall_forall in F. specialize (F _ I). apply flat_line.
  destruct p as [n x|[i|d]]; cbn [ShowProofs.entity_ok entity_line stmt_to_string] in *.
  - apply flat_app; [|reflexivity]. unfold label_to_string. destruct x; [apply flat_app; [reflexivity|]|]; apply ident_flat; exact F.
  - apply flat_app; [reflexivity|]. destruct F as ((( s & _ & SH) & _) & _). destruct (shaped_flat _ _ _ SH). apply instr_flat; assumption.
  - apply flat_app; [reflexivity|]. apply directive_flat. exact F.
Qed.
Lemma session_again : forall msg line l, read_as line l -> Forall plain_parsed l ->
  interactive_parse msg (written_out (map entity_line l)) = Ok (session_text (map (fun p => [entity_line p]) l)).
Proof.
  intros msg line l R F. apply (session_exact msg (written_out (map entity_line l)) (map entity_line l)).
  - split; [|left; reflexivity]. apply Forall_forall. intros s I. apply in_map_iff in I. destruct I as (p & <- & I). eapply entity_one_line; eassumption.
  - exists (map (fun p => [entity_line p]) l). split; [|reflexivity]. assert (X : forall p, In p l -> answer msg (entity_line p) = Ok [entity_line p]).
    { intros p I. apply (answered msg line l); [exact R|exact F|apply in_map; exact I]. }
    clear R F. induction l as [|p l IH]; [constructor|]. cbn [map]. constructor; [apply X; left; reflexivity|]. apply IH. intros q I. apply X. right. exact I.
Qed.
Lemma dumb_runs : forall fuel disk msg no_file prog path s mode args r v f, image_at disk path r -> number 16 s v -> 0 <= v < 2 ^ 32 -> mode_named mode f ->
  forall out c, ModelMain.dumb_main fuel disk msg no_file prog (path :: s :: mode :: args) = Ok (out, c) <-> ModelDumb.dumb_disassemble fuel msg (rom_read r) v f = (out, Ok c).
Proof.
  intros fuel disk msg no_file prog path s mode args r v f IM N V M out c. unfold dumb_main. rewrite (proj1 (image_open disk path r msg no_file "") IM). cbn [bind].
  destruct (hex_limits s) as (X & _). rewrite (proj2 (X v) (conj N V)). cbn [scanned bind]. rewrite (proj2 (NameProofs.flags_from_name_iff mode f) M).
  destruct (ModelDumb.dumb_disassemble fuel msg (rom_read r) v f) as [o k]. destruct k as [k|e|u|]; cbn [bind]; split; intros H; try discriminate H; injection H as -> ->; reflexivity.
Qed.
Lemma dumb_misnamed : forall fuel disk msg no_file prog path s mode args r, image_at disk path r -> ~ spaces s -> (forall v, ~ number 16 s v) ->
  dumb_main fuel disk msg no_file prog (path :: s :: mode :: args) = Ok (dumb_usage s, 1).
Proof.
  intros fuel disk msg no_file prog path s mode args r IM NS NN. unfold dumb_main. rewrite (proj1 (image_open disk path r msg no_file "") IM). cbn [bind].
  destruct (hex_limits s) as (_ & _ & X & _). rewrite (proj2 X (conj NS NN)). reflexivity.
Qed.

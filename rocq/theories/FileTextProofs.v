(** Proofs about the text that the programs of util/ print, given back as a file. *)
From Verif Require Import Base ModelNumeric ModelAddress ModelMnemonic ModelExpr ModelAMode ModelOpcode ModelState ModelInstr ModelToken ModelStatement ModelParse ModelMap ModelRom ModelModule ModelAssembler ModelDisasm
  SpecArith SpecNames SpecInstr SpecText SpecState SpecFlow SpecDisasm SpecListing SpecFile Spec65816 BaseProofs MapProofs ArithProofs NameProofs InstrProofs ModeProofs StateProofs TokenProofs FlowArriveProofs
  DisStateProofs DisStepProofs DisInvProofs DisRunProofs DisRequestProofs DisClosedProofs CleanProofs PrintProofs ReadProofs ListTextProofs ToolTextProofs RoundProofs ToolRunProofs ToolProofs DumpProofs SpecRom SpecSink SpecTools SpecDump DisCases FileProofs ModelFile ModelTools.
Open Scope string_scope.
Open Scope list_scope.
Open Scope Z_scope.
Local Opaque decode_opcode op_form op_name in_names check_consistency parse tokenize encode_opcode execute_in execute_branch assemble.

(** ** No newline. *)
Definition nn (c : ascii) : bool := negb (Ascii.eqb c newline).
Definition flat (s : string) : Prop := str_all nn s = true.
Lemma flat_line : forall s, flat s -> one_line s.
Proof.
  unfold flat. induction s as [|c s IH]; intros H; [apply no_char_nil|]. cbn [str_all] in H. apply andb_true_iff in H. destruct H as [H1 H2].
  apply no_char_cons. split; [intros ->; discriminate H1|apply IH; exact H2].
Qed.
Lemma line_flat : forall s, one_line s -> flat s.
Proof.
  unfold flat. induction s as [|c s IH]; intros H; [reflexivity|]. apply no_char_cons in H. destruct H as [H1 H2]. cbn [str_all].
  rewrite (IH H2), andb_true_r. unfold nn. destruct (Ascii.eqb_spec c newline); [contradiction|reflexivity].
Qed.
Lemma flat_app : forall s t, flat s -> flat t -> flat (s ++ t)%string.
Proof. intros s t. apply str_all_app. Qed.
Lemma flat_cons : forall c s, nn c = true -> flat s -> flat (String c s).
Proof. unfold flat. intros c s H1 H2. cbn [str_all]. rewrite H1, H2. reflexivity. Qed.
Lemma all_weaken : forall f g, (forall c, f c = true -> g c = true) -> forall s, str_all f s = true -> str_all g s = true.
Proof. intros f g H. induction s as [|c s IH]; intros A; [reflexivity|]. cbn [str_all] in *. apply andb_true_iff in A. destruct A as [A1 A2]. rewrite (H _ A1), (IH A2). reflexivity. Qed.
Lemma ident_nn : forall c, is_ident_char c = true -> nn c = true.
Proof. intros c H. unfold nn. destruct (Ascii.eqb_spec c newline) as [->|]; [discriminate H|reflexivity]. Qed.
Lemma ident_flat : forall n, identifier n -> flat n.
Proof.
  intros n (c & w & -> & F & A & _). apply flat_cons; [|apply (all_weaken _ _ ident_nn); exact A].
  unfold nn. destruct (Ascii.eqb_spec c newline) as [->|]; [discriminate F|reflexivity].
Qed.
Lemma spaces_flat : forall n, flat (spaces n).
Proof. induction n as [|n IH]; [reflexivity|]. apply flat_cons; [reflexivity|exact IH]. Qed.
Lemma pad_flat : forall n s, flat s -> flat (pad_right n s).
Proof. intros n s H. unfold pad_right. apply flat_app; [exact H|apply spaces_flat]. Qed.
Lemma digit_nn : forall d, 0 <= d < 16 -> nn (hex_digit d) = true.
Proof.
  intros d H. assert (C : In d [0;1;2;3;4;5;6;7;8;9;10;11;12;13;14;15]) by (cbn; lia). cbn [In] in C. repeat destruct C as [<-|C]; try contradiction; reflexivity.
Qed.
Lemma hex_flat : forall n v, flat (hex_fixed n v).
Proof.
  induction n as [|n IH]; intros v; [reflexivity|]. cbn [hex_fixed]. apply flat_app; [apply IH|]. apply flat_cons; [|reflexivity]. apply digit_nn. apply Z.mod_pos_bound. lia.
Qed.
Lemma digits_flat : forall n v, 0 <= v -> flat (dec_digits n v).
Proof. intros n v V. apply (all_weaken _ _ ident_nn). apply digits_ident. exact V. Qed.
Lemma dec_flat : forall v, flat (dec_string v).
Proof. intros v. unfold dec_string. destruct (Z.ltb_spec v 0); [apply flat_cons; [reflexivity|]|]; apply digits_flat; lia. Qed.
Lemma address_flat : forall a, flat (address_to_string a).
Proof. intros a. apply flat_cons; [reflexivity|apply hex_flat]. Qed.
Lemma lit_flat : forall v t, flat (lit_to_string v t).
Proof. intros v t. unfold lit_to_string. destruct t; first [apply dec_flat|apply flat_cons; [reflexivity|apply hex_flat]]. Qed.
Lemma flags_flat : forall f, flat (flags_to_string f).
Proof. intros [[] [] [] []]; reflexivity. Qed.
Lemma ret_flat : forall r, flat (rc_to_suffix r).
Proof. intros [|f|]; [reflexivity| |reflexivity]. cbn [rc_to_suffix]. apply flat_app; [reflexivity|apply flags_flat]. Qed.

(** ** Dumps. *)
Lemma ok_inj : forall A (a b : A), Ok a = Ok b -> a = b.
Proof. intros A a b H. injection H as H. exact H. Qed.
Lemma value_flat : forall src stride a s, dump_value src stride a = Ok s -> flat s.
Proof.
  intros src stride a s H. unfold dump_value in H. destruct (stride =? 2); [|destruct (stride =? 3)]; bok H as v V; apply ok_inj in H; subst s; (apply flat_cons; [reflexivity|apply hex_flat]).
Qed.
Lemma values_flat : forall n src stride a l, dump_values n src stride a = Ok l -> Forall flat l.
Proof.
  induction n as [|n IH]; intros src stride a l H; [injection H as <-; constructor|]. cbn [dump_values] in H. destruct (dump_value src stride a) as [s|e|u|] eqn:V; try discriminate H.
  bok H as l0 L. injection H as <-. constructor; [eapply value_flat; exact V|eapply IH; exact L].
Qed.
Lemma join_flat : forall l, Forall flat l -> flat (join l).
Proof.
  intros l F. induction F as [|s l S F IH]; [reflexivity|]. cbn [join]. destruct l; [exact S|]. repeat (apply flat_app; [first [exact S|reflexivity]|]). exact IH.
Qed.
Lemma dump_flat : forall fuel dir n l, flat dir -> Forall flat l -> Forall flat (dump_lines fuel dir n l).
Proof.
  induction fuel as [|fuel IH]; intros dir n l D F; [constructor|]. cbn [dump_lines].
  assert (LINE : forall l, Forall flat l -> flat (dir ++ " " ++ join l)%string) by (intros l0 F0; apply flat_app; [exact D|]; apply flat_app; [reflexivity|apply join_flat; exact F0]).
  rewrite <- (firstn_skipn n l) in F. apply Forall_app in F. destruct F as [F1 F2].
  destruct (n <? List.length l)%nat.
  - constructor; [apply LINE; exact F1|apply IH; assumption].
  - destruct l as [|s l]; [constructor|]. constructor; [|constructor]. apply LINE. rewrite <- (firstn_skipn n (s :: l)). apply Forall_app. auto.
Qed.
Lemma dump_one_line : forall src start count stride per_line lines, quick_dump src start count stride per_line = Ok lines -> Forall one_line lines.
Proof.
  intros src start count stride per_line lines H. unfold quick_dump in H. cbv zeta in H. bok H as a A. bok H as vs V. apply ok_inj in H. subst lines.
  assert (F : Forall flat vs) by (eapply values_flat; exact V).
  constructor; [apply flat_line; apply flat_app; [reflexivity|apply hex_flat]|].
  eapply Forall_impl; [intros s; apply flat_line|]. apply dump_flat; [|exact F]. destruct (_ =? 2); [reflexivity|]. destruct (_ =? 3); reflexivity.
Qed.

(** ** Listings. *)
Definition arg_flat (e : option expr) : Prop := flat (expr_opt_to_string e).
Lemma instr_flat : forall i, arg_flat (i_arg1 i) -> arg_flat (i_arg2 i) -> flat (instr_to_string i).
Proof.
  intros i A B. unfold arg_flat in *. unfold instr_to_string. apply flat_app; [destruct (i_mnem i); reflexivity|]. apply flat_app; [destruct (i_suffix i); reflexivity|].
  apply flat_app; [|apply ret_flat]. unfold args_to_string. cbv zeta. destruct (i_mode i); repeat (apply flat_app; [first [exact A|exact B|reflexivity]|]); first [exact A|exact B|reflexivity].
Qed.
Lemma cleaned_args : forall src rets q d d' a c, conventions_ok rets -> byte_source src -> session src rets q d -> ds_sym d < 2 ^ 31 -> cleanup d = Ok d' -> In (a, c) (ds_map d') ->
  arg_flat (i_arg1 (di_instr c)) /\ arg_flat (i_arg2 (di_instr c)).
Proof.
  intros src rets q d d' a c CO BS S SY CL IN. destruct (cleanup_open _ _ _ _ _ CO BS S SY CL) as (m3 & E & K & U & NB & P). destruct (session_maps _ _ _ _ CO BS S SY) as (SO & UL & _).
  pose proof (keys_sorted _ _ _ _ K SO) as SO3. destruct (fold_spec (List.length m3) m3 ltac:(lia) SO3) as (F1 & F2 & F3). pose proof (session_good _ _ _ _ CO S) as G.
  assert (LAB : forall b x3, In (b, x3) m3 -> di_label x3 <> "" -> flat (di_label x3)) by (intros b x3 I3 L3; apply ident_flat, (numbered_ident 0 0 (zlen (ds_map d))); [lia|lia|]; eapply NB; eassumption).
  assert (X : exists b c3, In (b, c3) m3 /\ i_arg1 (di_instr c) = i_arg1 (di_instr c3) /\ i_arg2 (di_instr c) = i_arg2 (di_instr c3)).
  { rewrite E in IN. destruct (F2 _ _ IN) as [I3|(c3 & b & x3 & pm & AD & FM & LX & EC & NI)]; [eauto|]. exists b, x3. split; [destruct AD as (l1 & l2 & ->); apply in_or_app; right; right; left; reflexivity|rewrite EC; split; reflexivity]. }
  destruct X as (b & c3 & I3 & -> & ->). destruct (P _ _ I3) as (c0 & INC & (P1 & P2 & P3 & P4 & P5 & P6 & P7 & PS & PL & PN)).
  assert (KC : collected d b c0) by (apply om_in_find; assumption). destruct (good_entry _ _ _ _ G _ _ KC) as [A EN].
  destruct (entry_open _ _ _ _ _ BS A EN) as (op & rest & j & v & RD & B & R & DE & FA & RE & LO & SC & _). pose proof SC as (M & MD & A2 & A1). destruct (decoded_literal _ _ _ _ R DE) as [L1 L2].
  split; [|rewrite P6, A2; destruct L2 as [-> |(w & t & ->)]; [reflexivity|apply lit_flat]].
  destruct (is_local_branch j) eqn:LB.
  - pose proof (proj1 (decode_local op rest _ j R DE) LB) as RB.
    destruct (closed _ _ _ _ _ _ CO BS S KC) as (op' & rest' & j' & n & RD' & DE' & KL & _ & CB & _). rewrite RD in RD'. injection RD' as <- <-. rewrite DE in DE'. injection DE' as <-.
    destruct (CB RB) as (t & x & BD & KX & LX & SH & _). destruct SH as (_ & _ & _ & SH & _). destruct (SH RB) as (e & _ & AE).
    apply om_find_in in KX. destruct (PL _ _ _ _ AE KX eq_refl LX) as (x3 & IX3 & LX3 & AX3). rewrite AX3. unfold arg_flat. cbn [expr_opt_to_string expr_to_string]. eapply LAB; eassumption.
  - assert (IL : is_label (i_arg1 (di_instr c0)) = false) by (rewrite A1; destruct L1 as [X|(w & ty & X)]; rewrite X; reflexivity).
    destruct (PN IL) as [AE|(t & x3 & ty & FT & IX3 & LX3 & AE & TY)].
    + rewrite AE, A1. destruct L1 as [-> |(w & t & ->)]; [reflexivity|apply lit_flat].
    + rewrite AE. unfold arg_flat. cbn [expr_opt_to_string expr_to_string fullid_to_string fi_module fi_name]. apply flat_app; [destruct (ntype_eqb ty T_long); reflexivity|eapply LAB; eassumption].
Qed.
Lemma entry_flat : forall pc c, flat (di_label c) -> arg_flat (i_arg1 (di_instr c)) -> arg_flat (i_arg2 (di_instr c)) -> Forall flat (entry_lines pc c).
Proof.
  intros pc c L A B. unfold entry_lines. cbv zeta. pose proof (instr_flat _ A B) as I.
  assert (LT : flat (if String.eqb (di_label c) "" then "" else (di_label c ++ ":")%string)) by (destruct (String.eqb (di_label c) ""); [reflexivity|]; apply flat_app; [exact L|reflexivity]).
  assert (SHOWN : forall l, flat l -> flat (pad_right 35 (pad_right 8 l ++ " " ++ instr_to_string (di_instr c)) ++ " ; " ++ address_to_string pc ++ " " ++ flags_to_string (es_flags (di_next c)))%string).
  { intros l FL. apply flat_app; [apply pad_flat; apply flat_app; [apply pad_flat; exact FL|]; apply flat_app; [reflexivity|exact I]|].
    apply flat_app; [reflexivity|]. apply flat_app; [apply address_flat|]. apply flat_app; [reflexivity|apply flags_flat]. }
  destruct (di_entry c); repeat constructor.
  - apply flat_app; [apply pad_flat; exact LT|]. apply flat_app; [reflexivity|apply flags_flat].
  - apply (SHOWN ""). reflexivity.
  - apply SHOWN. exact LT.
Qed.
Lemma org_flat : forall a, flat (org_line a).
Proof. intros a. apply flat_app; [reflexivity|apply address_flat]. Qed.
Lemma listing_flat : forall m, (forall a c, In (a, c) m -> Forall flat (entry_lines a c)) -> Forall flat (listing m).
Proof.
  intros m H. unfold listing. destruct m as [|[a c] m0]; [constructor; [reflexivity|constructor]|].
  constructor; [apply flat_app; [reflexivity|]; apply flat_app; [apply dec_flat|reflexivity]|]. constructor; [apply org_flat|].
  generalize a at 1. revert H. generalize ((a, c) :: m0). clear. intros m. induction m as [|[b x] m IH]; intros H pc; [constructor|]. cbn [listing_lines].
  apply Forall_app. split; [destruct (b =? pc); [constructor|constructor; [apply org_flat|constructor]]|]. apply Forall_app. split; [apply H; left; reflexivity|].
  apply IH. intros a c IN. apply H. right. exact IN.
Qed.
Lemma listing_one_line : forall src rets q d d', conventions_ok rets -> byte_source src -> session src rets q d -> ds_sym d < 2 ^ 31 -> cleanup d = Ok d' -> Forall one_line (listing (ds_map d')).
Proof.
  intros src rets q d d' CO BS S SY CL. eapply Forall_impl; [intros s; apply flat_line|]. apply listing_flat. intros a c IN.
  destruct (cleaned_label _ _ _ _ _ _ _ CO BS S SY CL IN) as (_ & _ & ID). destruct (cleaned_args _ _ _ _ _ _ _ CO BS S SY CL IN) as [A B]. apply entry_flat; [|exact A|exact B].
  destruct (String.eqb_spec (di_label c) "") as [-> |N]; [reflexivity|apply ident_flat; exact (ID N)].
Qed.
Lemma seeds_flat : forall fuel msg src seeds d new out d' new' out', (forall e, one_line (msg e)) -> Forall flat out -> run_seeds fuel msg src seeds d new out = Ok (d', new', out') -> Forall flat out'.
Proof.
  intros fuel msg src seeds. induction seeds as [|[a f] seeds IH]; intros d new out d' new' out' MS F H; [injection H as <- <- <-; exact F|]. cbn [run_seeds] in H.
  destruct (disassemble fuel src a f d) as [d1 [far|e|u|]]; try discriminate H; [eapply IH; [exact MS|exact F|exact H]|].
  eapply IH; [exact MS| |exact H]. apply Forall_app. split; [exact F|]. repeat constructor.
  - repeat (apply flat_app; [first [reflexivity|apply address_flat]|]). apply flags_flat.
  - apply flat_app; [reflexivity|apply line_flat, MS].
Qed.
Lemma passes_flat : forall n fuel msg src seeds d out d' left' out', (forall e, one_line (msg e)) -> Forall flat out -> run_passes n fuel msg src seeds d out = Ok (d', left', out') -> Forall flat out'.
Proof.
  induction n as [|n IH]; intros fuel msg src seeds d out d' left' out' MS F H; [injection H as <- <- <-; exact F|]. cbn [run_passes] in H.
  bok H as p R. destruct p as [[d1 s1] o1]. eapply IH; [exact MS| |exact H]. eapply seeds_flat; [exact MS|exact F|exact R].
Qed.

(** ** Back from the text. *)
Lemma dump_text : forall r start count stride per_line lines fuel msg, addr24 start -> bytes_ok (rom_data r) -> dump_size count stride <= 2 ^ 16 ->
  quick_dump (rom_read r) start count stride per_line = Ok lines ->
  quick_assemble fuel msg r true [read_lines (written_out lines)] = Ok ["0 jump targets found"] /\
  quick_assemble fuel msg r true [read_lines (with_returns (written_out lines))] = Ok ["0 jump targets found"].
Proof.
  intros r start count stride per_line lines fuel msg A B D H. destruct (dump_assembles r start count stride per_line lines fuel msg A B D H) as (ws & asm & _ & _ & _ & _ & Q).
  pose proof (lines_back _ (dump_one_line _ _ _ _ _ _ H)) as E.
  assert (X : quick_assemble fuel msg r true [read_lines (with_returns (written_out lines))] = quick_assemble fuel msg r true [read_lines (written_out lines)]).
  { unfold quick_assemble. pose proof (assemble_cong (fun t => read_lines (with_returns t)) read_lines returns_load [written_out lines] fuel (identity_sink r)) as Y. cbn [map] in Y. rewrite Y. reflexivity. }
  rewrite X, E. auto.
Qed.
Lemma tool_text : forall r seeds fuel msg d left out, (forall e, one_line (msg e)) -> bytes_ok (rom_data r) -> seeds_ok seeds ->
  run_passes 100 fuel msg (rom_read r) seeds new_disassembler [] = Ok (d, left, out) -> ds_sym d < 2 ^ 31 ->
  exists lines, quick_disassemble fuel msg (rom_read r) seeds = Ok lines /\ read_lines (written_out lines) = lines /\
  (forall fuel' ws asm, assemble fuel' takes_all [read_lines (written_out lines)] = (ws, Ok asm) ->
     quick_assemble fuel' msg r true [read_lines (written_out lines)] = Ok (target_lines asm) /\
     quick_assemble fuel' msg r true [read_lines (with_returns (written_out lines))] = Ok (target_lines asm)).
Proof.
  intros r seeds fuel msg d left out MS BO SO H SY. pose proof (rom_bytes _ BO) as BS. assert (NZ : 100%nat <> O) by discriminate.
  destruct (run_passes_spec 100 fuel msg (rom_read r) seeds [] new_disassembler [] d left out BS (or_intror (conj NZ SO))) as (q & os & S & E & N & _); [exact (se_new (rom_read r) [])|exact H|].
  destruct (clean _ _ _ _ no_conventions BS S SY) as (d' & CL & _). exists (out ++ listing (ds_map d')).
  assert (F : Forall one_line (out ++ listing (ds_map d'))).
  { apply Forall_app. split; [eapply Forall_impl; [intros s; apply flat_line|]; eapply passes_flat; [exact MS|constructor|exact H]|]. eapply listing_one_line; [exact no_conventions|exact BS|exact S|exact SY|exact CL]. }
  split; [unfold quick_disassemble; rewrite H; cbn [bind]; rewrite CL; reflexivity|]. split; [apply lines_back; exact F|].
  intros fuel' ws asm. destruct (tool r seeds fuel msg d left out BO SO H SY) as (d2 & CL2 & _ & T). rewrite CL in CL2. injection CL2 as <-.
  assert (X : quick_assemble fuel' msg r true [read_lines (with_returns (written_out (out ++ listing (ds_map d'))))] = quick_assemble fuel' msg r true [read_lines (written_out (out ++ listing (ds_map d')))]).
  { unfold quick_assemble. pose proof (assemble_cong (fun t => read_lines (with_returns t)) read_lines returns_load [written_out (out ++ listing (ds_map d'))] fuel' (identity_sink r)) as Y. cbn [map] in Y. rewrite Y. reflexivity. }
  rewrite X, (lines_back _ F). intros AS. destruct (T fuel' ws asm AS) as [_ Q]. auto.
Qed.

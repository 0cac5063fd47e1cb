(** Proofs about the output of util/quick_disassemble.cc, util/quick_assemble.cc and
    util/disassemble_more.cc. *)
From Verif Require Import Base ModelNumeric ModelAddress ModelMnemonic ModelExpr ModelAMode ModelOpcode ModelState ModelInstr ModelToken ModelStatement ModelParse ModelMap ModelModule ModelAssembler ModelRom ModelDisasm
  SpecArith SpecText SpecInstr SpecState SpecLayout SpecAssemble SpecFlow SpecRom SpecDisasm SpecListing SpecSink SpecTools BaseProofs MapProofs ArithProofs RomProofs SinkProofs
  DisInvProofs DisRunProofs DisRequestProofs DisClosedProofs DisCases CleanProofs PrintProofs ListTextProofs ModelTools ToolTextProofs RoundProofs ToolRunProofs.
Open Scope string_scope.
Open Scope list_scope.
Open Scope Z_scope.
Local Opaque decode_opcode check_consistency parse tokenize instr_to_string encode_opcode execute_in execute_branch assemble.

(** ** The sink that compares with the image. *)
Lemma nth_byte_cons : forall b l k x, nth_byte (b :: l) k = Some x -> k = 0 /\ x = b \/ 0 < k /\ nth_byte l (k - 1) = Some x.
Proof.
  intros b l k x H. unfold nth_byte in *. destruct (Z.leb_spec 0 k); [|discriminate H]. cbn [andb] in H. destruct (Z.ltb_spec k (Z.of_nat (List.length (b :: l)))) as [L|L]; [|discriminate H]. cbn [List.length] in L.
  injection H as <-. destruct (Z.eq_dec k 0) as [->|N]; [left; auto|right]. split; [lia|]. destruct (Z.leb_spec 0 (k - 1)); [|lia]. cbn [andb]. destruct (Z.ltb_spec (k - 1) (Z.of_nat (List.length l))); [|lia].
  f_equal. replace (Z.to_nat k) with (Datatypes.S (Z.to_nat (k - 1))) by lia. reflexivity.
Qed.
Lemma nth_byte_app : forall l r k b, nth_byte l k = Some b -> nth_byte (l ++ r) k = Some b.
Proof.
  intros l r k b H. unfold nth_byte in *. destruct (Z.leb_spec 0 k); [|discriminate H]. cbn [andb] in *. destruct (Z.ltb_spec k (Z.of_nat (List.length l))); [|discriminate H]. injection H as <-.
  rewrite app_length. destruct (Z.ltb_spec k (Z.of_nat (List.length l + List.length r))); [|lia]. f_equal. apply app_nth1. lia.
Qed.
Lemma bank_steps : forall a i j, same_bank_plus (same_bank_plus a i) j = same_bank_plus a (i + j).
Proof.
  intros a i j. unfold same_bank_plus, bank_of, offset_of. set (o := (a mod 2 ^ 16 + i) mod 2 ^ 16).
  assert (M : 0 <= o < 2 ^ 16) by (apply Z.mod_pos_bound; lia).
  rewrite Z.div_add_l, (Z.div_small o), Z.add_0_r by (exact M || lia). f_equal.
  rewrite (Z.add_comm (_ * _)), Z.mod_add, (Z.mod_small o) by (exact M || lia). unfold o. rewrite Zplus_mod_idemp_l. f_equal. lia.
Qed.
Lemma bank_addr : forall a k, addr24 a -> addr24 (same_bank_plus a k).
Proof.
  intros a k A. unfold addr24, same_bank_plus, bank_of, offset_of in *. pose proof (Z.mod_pos_bound (a mod 2 ^ 16 + k) (2 ^ 16) ltac:(lia)).
  assert (0 <= a / 2 ^ 16 < 2 ^ 8) by (split; [apply Z.div_pos; lia|apply Z.div_lt_upper_bound; lia]). lia.
Qed.
Lemma holds_rom : forall r a l, addr24 a -> holds (rom_read r) a l -> forall k b, nth_byte l k = Some b -> in_rom r (same_bank_plus a k) b.
Proof.
  intros r a l A H. revert A. induction H as [pc l r' R|pc b l H1 IH1 H2 IH2]; intros A k x N.
  - destruct (rom_read_exact r pc 4 A ltac:(lia)) as [X _]. apply (proj2 (proj1 (X _) R)). apply nth_byte_app. exact N.
  - apply nth_byte_cons in N. destruct N as [[-> ->]|[K N]].
    + apply IH1; [exact A|reflexivity].
    + replace k with (1 + (k - 1)) by lia. rewrite <- bank_steps. apply IH2; [apply bank_addr; exact A|exact N].
Qed.
Lemma holds_accepted : forall r a l, addr24 a -> zlen l <= 2 ^ 16 -> holds (rom_read r) a l -> identity_write r a l = Ok tt.
Proof. intros r a l A L H. apply identity_exact; [exact A|exact L|]. apply holds_rom; assumption. Qed.
Lemma offer_all : forall sk ws done, (forall d w, In w ws -> sk d w = Ok tt) -> offer sk done ws = (done ++ ws, Ok tt).
Proof.
  intros sk. induction ws as [|w ws IH]; intros done H; cbn [offer]; [rewrite app_nil_r; reflexivity|]. rewrite H by (left; reflexivity).
  rewrite IH by (intros d v IN; apply H; right; exact IN). rewrite <- app_assoc. reflexivity.
Qed.

(** ** quick_disassemble, and its output given to quick_assemble. *)
Lemma no_conventions : conventions_ok [].
Proof. intros u r U. discriminate U. Qed.
Lemma none_readable : readable [].
Proof. intros u r U. discriminate U. Qed.
Lemma size_small : forall i, instr_size i <= 2 ^ 16.
Proof. intros i. unfold instr_size. cbv zeta. destruct (i_mnem i); destruct (i_mode i); cbn; lia. Qed.
Lemma tool : forall r seeds fuel msg d left out, bytes_ok (rom_data r) -> seeds_ok seeds -> run_passes 100 fuel msg (rom_read r) seeds new_disassembler [] = Ok (d, left, out) -> ds_sym d < 2 ^ 31 ->
  exists d', cleanup d = Ok d' /\ quick_disassemble fuel msg (rom_read r) seeds = Ok (out ++ listing (ds_map d')) /\
  (forall fuel' ws asm, assemble fuel' takes_all [out ++ listing (ds_map d')] = (ws, Ok asm) ->
     Forall2 (fun kv w => fst w = fst kv /\ zlen (snd w) = instr_size (di_instr (snd kv)) /\ holds (rom_read r) (fst w) (snd w)) (ds_map d') ws /\
     quick_assemble fuel' msg r true [out ++ listing (ds_map d')] = Ok (target_lines asm)).
Proof.
  intros r seeds fuel msg d left out BO SO H SY. pose proof (rom_bytes _ BO) as BS. assert (NZ : 100%nat <> O) by discriminate.
  destruct (run_passes_spec 100 fuel msg (rom_read r) seeds [] new_disassembler [] d left out BS (or_intror (conj NZ SO))) as (q & os & S & E & N & _); [exact (se_new (rom_read r) [])|exact H|].
  cbn in E. subst os. destruct (clean _ _ _ _ no_conventions BS S SY) as (d' & CL & _). exists d'. split; [exact CL|]. split; [unfold quick_disassemble; rewrite H; cbn [bind]; rewrite CL; reflexivity|].
  intros fuel' ws asm AS. assert (W := reassembles_after _ _ _ _ _ _ _ _ _ _ N no_conventions none_readable BS S SY CL AS). split; [exact W|].
  unfold quick_assemble. rewrite (sink_only_ends _ (identity_sink r) _ _ _ AS). rewrite offer_all; [reflexivity|]. intros dn w IN. unfold identity_sink.
  assert (X : exists kv, In kv (ds_map d') /\ fst w = fst kv /\ zlen (snd w) = instr_size (di_instr (snd kv)) /\ holds (rom_read r) (fst w) (snd w)).
  { clear - W IN. induction W as [|kv v m ws X W IH]; [destruct IN|]. destruct IN as [->|IN]; [exists kv; split; [left; reflexivity|exact X]|]. destruct (IH IN) as (kv' & I & Y). exists kv'. split; [right; exact I|exact Y]. }
  destruct X as ([a c] & I & E1 & E2 & HO). cbn [fst snd] in *. destruct (cleaned_label _ _ _ _ _ _ _ no_conventions BS S SY CL I) as (A & _). apply holds_accepted; [rewrite E1; exact A|rewrite E2; apply size_small|exact HO].
Qed.

(** ** disassemble_more. *)
Lemma moved_crashes : forall fuel t f d, ds_map d = [] -> snd (disassemble (Datatypes.S fuel) moved_source t f d) = UB UB_null.
Proof.
  intros fuel t f d E. unfold disassemble. rewrite E. unfold get_label. cbn [dw_labels om_find].
  cbn [disasm_loop dw_stack om_set disasm_step dw_set_stack dw_new get_instruction om_find dw_set_new]. reflexivity.
Qed.
Lemma set_in : forall A (m : omap A) k v t f, In (t, f) (om_set k v m) -> t = k \/ In (t, f) m.
Proof.
  intros A. induction m as [|[j w] m IH]; intros k v t f IN; cbn [om_set] in IN; [destruct IN as [E|[]]; injection E as <- <-; auto|].
  destruct (j <? k).
  - destruct IN as [E|IN]; [right; left; exact E|]. destruct (IH _ _ _ _ IN) as [->|I']; [auto|right; right; exact I'].
  - destruct (j =? k); (destruct IN as [E|IN]; [injection E as <- <-; auto|]); right; [right|]; exact IN.
Qed.
Lemma jump_targets_out : forall a t f, In (t, f) (jump_targets a) -> assembler_contains a t = false.
Proof.
  intros a. unfold jump_targets. assert (P0 : forall t f, In (t, f) (@nil (Z * flags)) -> assembler_contains a t = false) by (intros t f []). revert P0. generalize (@nil (Z * flags)).
  induction (as_mods a) as [|m ms IH]; intros acc P; cbn [fold_left]; [exact P|]. apply IH. clear IH. revert acc P. induction (md_targets m) as [|[k g] l IH]; intros acc P; cbn [fold_left]; [exact P|].
  apply IH. cbn [fst snd]. destruct (assembler_contains a k) eqn:C; [exact P|]. intros t f IN. unfold om_merge in IN. destruct (om_find k acc); apply set_in in IN; (destruct IN as [->|IN]; [exact C|exact (P _ _ IN)]).
Qed.
Lemma more_empty : forall n fuel msg src a d out, more_passes n fuel msg src a [] d out = Ok (d, [], out).
Proof. induction n as [|n IH]; intros fuel msg src a d out; [reflexivity|]. cbn [more_passes more_seeds bind]. apply IH. Qed.
Lemma more_does_nothing : forall fuel msg r files ws a, assemble (Datatypes.S fuel) (identity_sink r) files = (ws, Ok a) ->
  disassemble_more (Datatypes.S fuel) msg r files = match jump_targets a with [] => Ok ["; Disassembled no instructions."] | _ => UB UB_null end.
Proof.
  intros fuel msg r files ws a H. unfold disassemble_more. rewrite H. cbn [snd]. unfold more_listing. destruct (jump_targets a) as [|[t f] l] eqn:J.
  - rewrite more_empty. reflexivity.
  - assert (C : assembler_contains a t = false) by (apply (jump_targets_out a t f); rewrite J; left; reflexivity).
    change (more_passes 100 (Datatypes.S fuel) msg moved_source a ((t, f) :: l)) with (more_passes (Datatypes.S 99) (Datatypes.S fuel) msg moved_source a ((t, f) :: l)). cbn [more_passes more_seeds]. rewrite C.
    match goal with |- context [disassemble _ _ _ _ ?d] => pose proof (moved_crashes fuel t f d eq_refl) as M end. destruct (disassemble (Datatypes.S fuel) moved_source t f _) as [d' x]. cbn [snd] in M. subst x. reflexivity.
Qed.

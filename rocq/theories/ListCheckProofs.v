(** A test for the conditions of SpecRelist, and what follows for the tools. *)
From Verif Require Import Base ModelNumeric ModelAddress ModelExpr ModelMnemonic ModelAMode ModelState ModelInstr ModelMap ModelModule ModelAssembler ModelRom ModelDisasm ModelTools
  Spec65816 SpecArith SpecInstr SpecState SpecFlow SpecRom SpecDisasm SpecListing SpecText SpecAssemble SpecSink SpecTools SpecRelist BaseProofs MapProofs SinkProofs CleanProofs ReassembleProofs ToolTextProofs RoundProofs ToolRunProofs ToolProofs
  DisCases CleanFlowProofs.
Open Scope list_scope.
Open Scope Z_scope.

Definition known_b (b : bitstate) : bool := match known_bit b with Some _ => true | None => false end.
Definition declared_b (s : estate) : bool :=
  negb (known_b (fl_c (es_flags s))) && (known_b (fl_e (es_flags s)) || negb (known_b (fl_m (es_flags s))) && negb (known_b (fl_x (es_flags s)))) &&
  match es_stack s with Abandoned | Live [] => true | _ => false end.
Lemma declared_ok : forall s, declared_b s = true -> declared s.
Proof.
  intros s H. unfold declared_b, known_b in H. apply andb_true_iff in H. destruct H as [H K]. apply andb_true_iff in H. destruct H as [C E]. split; [destruct (known_bit (fl_c (es_flags s))); [discriminate C|reflexivity]|]. split.
  - intros N. rewrite N in E. cbn [orb] in E. apply andb_true_iff in E. destruct E as [A B]. split; [destruct (known_bit (fl_m (es_flags s))); [discriminate A|reflexivity]|destruct (known_bit (fl_x (es_flags s))); [discriminate B|reflexivity]].
  - destruct (es_stack s) as [|[|v l]]; [auto|auto|discriminate K].
Qed.
Definition is_width (b : bitstate) (v : bool) : bool := match known_bit b with Some w => Bool.eqb w v | None => false end.
Lemma is_width_ok : forall b v, is_width b v = true -> known_bit b = Some v.
Proof. intros b v H. unfold is_width in H. destruct (known_bit b) as [w|]; [|discriminate H]. apply eqb_prop in H. congruence. Qed.
Definition listed (s : string) (l : list string) : bool := existsb (String.eqb s) l.
Lemma listed_ok : forall s l, listed s l = true -> In s l.
Proof. intros s l H. apply existsb_exists in H. destruct H as (x & I & E). apply String.eqb_eq in E. subst x. exact I. Qed.
Definition suffix_b (i : instr) (f : flags) : bool :=
  let sized := mnem_to_string (hardware_mnemonic (i_mnem i)) in
  let says v := listed sized m_sized && is_width (fl_m f) v || listed sized x_sized && is_width (fl_x f) v in
  match i_suffix i with S_none => true | S_b => says true | S_w => says false end.
Lemma suffix_ok : forall i f, suffix_b i f = true -> suffix_known i f.
Proof.
  intros i f H. unfold suffix_b in H. unfold suffix_known. cbv zeta in *. destruct (i_suffix i); [exact Logic.I| |];
    (apply orb_true_iff in H; destruct H as [H|H]; apply andb_true_iff in H; destruct H as [A B]; apply listed_ok in A; apply is_width_ok in B; auto).
Qed.
Definition pull_b (b : bitstate) (k : stack) : bool := known_b b || match b, k with B_original, Live _ => true | _, _ => false end.
Lemma pull_ok : forall b k, pull_b b k = true -> pull_known b k.
Proof.
  intros b k H. unfold pull_b, known_b in H. apply orb_true_iff in H. destruct H as [H|H]; [left; destruct (known_bit b); [discriminate|discriminate H]|]. right. destruct b; try discriminate H. destruct k as [|l]; [discriminate H|]. eauto.
Qed.
Definition pulls_b (m : mnemonic) (s : estate) : bool :=
  match m with M_pla => pull_b (fl_m (es_flags s)) (es_stack s) | M_plx | M_ply => pull_b (fl_x (es_flags s)) (es_stack s) | _ => true end.
Lemma pulls_ok : forall m s, pulls_b m s = true -> pulls_known m s.
Proof. intros m s H. split; [intros ->|intros [->| ->]]; apply pull_ok; exact H. Qed.
Definition packed_b (m : omap dinstr) : bool := forallb (fun kv => forallb (fun kw => (fst kw <=? fst kv) || (fst kv + instr_size (di_instr (snd kv)) <=? fst kw)) m) m.
Lemma packed_ok : forall m, packed_b m = true -> forall a c b x, In (a, c) m -> In (b, x) m -> a < b -> a + instr_size (di_instr c) <= b.
Proof.
  intros m P a c b x IA IB L. unfold packed_b in P. rewrite forallb_forall in P. specialize (P _ IA). cbv beta in P. rewrite forallb_forall in P. specialize (P _ IB). cbn [fst snd] in P.
  apply orb_true_iff in P. destruct P as [P|P]; lia.
Qed.
Definition room_b (a : Z) (i : instr) : bool :=
  if is_exit_instruction i then offset_of a + instr_size i <=? 2 ^ 16 else offset_of a + instr_size i <? 2 ^ 16.
Definition listable_but_pulls (d : disassembler) : bool :=
  forallb (fun kv => let c := snd kv in negb (mnem_eqb (i_mnem (di_instr c)) M_per) && (negb (di_entry c) || declared_b (di_cur c)) && suffix_b (di_instr c) (es_flags (di_cur c)) && room_b (fst kv) (di_instr c)) (ds_map d) && packed_b (ds_map d).
Definition pulls_all (d : disassembler) : bool := forallb (fun kv => pulls_b (i_mnem (di_instr (snd kv))) (di_cur (snd kv))) (ds_map d).
Lemma stops_exit : forall i, is_exit_instruction i = true -> stops i.
Proof.
  intros i H. unfold is_exit_instruction in H. unfold stops. apply orb_true_iff in H. destruct H as [H|H]; [left; destruct (i_mnem i); try discriminate H; cbn; auto 10|]. right. destruct (i_ret i); try discriminate H. reflexivity.
Qed.
Lemma listable_ok : forall d, listable_but_pulls d = true -> pulls_all d = true -> listable [] d.
Proof.
  intros d H P. unfold listable_but_pulls in H. apply andb_true_iff in H. destruct H as [H PK]. unfold pulls_all in P. rewrite forallb_forall in H, P.
  assert (X : forall a c, collected d a c -> i_mnem (di_instr c) <> M_per /\ (di_entry c = true -> declared (di_cur c)) /\ suffix_known (di_instr c) (es_flags (di_cur c)) /\ room_b a (di_instr c) = true).
  { intros a c K. specialize (H _ (om_find_in _ _ _ _ K)). cbv beta zeta in H. cbn [fst snd] in H. apply andb_true_iff in H. destruct H as [H R]. apply andb_true_iff in H. destruct H as [H U]. apply andb_true_iff in H. destruct H as [M E].
    split; [intros Z; rewrite Z in M; discriminate M|]. split; [intros Z; rewrite Z in E; apply declared_ok; exact E|]. split; [apply suffix_ok; exact U|exact R]. }
  constructor.
  - intros t f F. discriminate F.
  - intros a c K. apply (X a c K).
  - intros a c K. apply (X a c K).
  - intros a c K. apply (X a c K).
  - intros a c K. apply pulls_ok. exact (P _ (om_find_in _ _ _ _ K)).
  - split; [|split].
    + intros a c b x KA KB. apply (packed_ok _ PK a c b x); apply om_find_in; assumption.
    + intros a c K. destruct (X a c K) as (_ & _ & _ & R). unfold room_b in R. destruct (is_exit_instruction (di_instr c)); lia.
    + intros a c K N. destruct (X a c K) as (_ & _ & _ & R). unfold room_b in R. destruct (is_exit_instruction (di_instr c)) eqn:E; [|lia]. contradiction N. apply stops_exit. exact E.
Qed.
Lemma round_trip : forall r seeds fuel msg d left out d', bytes_ok (rom_data r) -> seeds_ok seeds -> run_passes 100 fuel msg (rom_read r) seeds new_disassembler [] = Ok (d, left, out) -> ds_sym d < 2 ^ 31 ->
  cleanup d = Ok d' -> listable [] d' ->
  exists text N, quick_disassemble fuel msg (rom_read r) seeds = Ok text /\ forall fuel', (N <= fuel')%nat -> exists asm, quick_assemble fuel' msg r true [text] = Ok (target_lines asm).
Proof.
  intros r seeds fuel msg d left out d' BO SO H SY CL LI. pose proof (rom_bytes _ BO) as BS. assert (NZ : 100%nat <> O) by discriminate.
  destruct (run_passes_spec 100 fuel msg (rom_read r) seeds [] new_disassembler [] d left out BS (or_intror (conj NZ SO))) as (q & os & S & E & N & _); [exact (se_new (rom_read r) [])|exact H|]. cbn in E. subst os.
  destruct (tool r seeds fuel msg d left out BO SO H SY) as (d1 & CL1 & QD & AF). assert (d1 = d') by congruence. subst d1.
  destruct (listing_assembles _ _ _ _ _ _ N no_conventions BS S SY CL LI) as (M & AS). exists (out ++ ModelTools.listing (ds_map d')), M. split; [exact QD|]. intros fuel' LE.
  destruct (AS fuel' LE takes_all ltac:(reflexivity)) as (ws & asm & A & _). exists asm. exact (proj2 (AF _ _ _ A)).
Qed.

(** Properties of the cleaned-up disassembly (nsasm/disassemble.cc, Disassembler::Cleanup). *)
From Verif Require Import Base ModelNumeric ModelAddress ModelExpr ModelMnemonic ModelAMode ModelState ModelInstr ModelMap ModelRom ModelDisasm
  Spec65816 SpecArith SpecInstr SpecState SpecFlow SpecDisasm SpecListing CleanProofs DisCases.
Open Scope list_scope.
Open Scope Z_scope.

(** ** Images for the cases. *)
Definition small : flags := RawFlags B_off B_on B_on B_unknown.
(** CLC; ADC #5; SEC; SBC #1; BNE -5, to the SBC; CLC; ADC $12; JMP $8000 *)
Definition sums : list Z := [0x18; 0x69; 0x05; 0x38; 0xE9; 0x01; 0xD0; 0xFC; 0x18; 0x65; 0x12; 0x4C; 0x00; 0x80].
Definition summed : disassembler := fst (after (image sums) [] [(0x8000, small)]).
Definition clean_of (d : disassembler) : disassembler := match cleanup d with Ok d' => d' | _ => d end.
Lemma clean_is : forall d, is_ok (cleanup d) = true -> cleanup d = Ok (clean_of d).
Proof. intros d H. unfold clean_of. destruct (cleanup d); try discriminate H. reflexivity. Qed.
Definition within_b (d : disassembler) : bool :=
  forallb (fun kv => negb (mnem_eqb (i_mnem (di_instr (snd kv))) PM_add || mnem_eqb (i_mnem (di_instr (snd kv))) PM_sub) || negb (offset_of (fst kv) =? 2 ^ 16 - 1)) (ds_map d).
Lemma within_ok : forall d, within_b d = true -> within_banks d.
Proof.
  intros d H pc c K M E. unfold within_b in H. rewrite forallb_forall in H. specialize (H _ (MapProofs.om_find_in _ _ _ _ K)). cbn [fst snd] in H.
  apply orb_true_iff in H. destruct H as [H|H]; [|rewrite E, Z.eqb_refl in H; discriminate H]. destruct M as [M|M]; rewrite M in H; discriminate H.
Qed.

(** ** C37.  Cleaning up succeeds, and leaves no two instructions with the same label. *)
Theorem C37_succeeds : forall src rets q d, conventions_ok rets -> byte_source src -> session src rets q d -> ds_sym d < 2 ^ 31 -> exists d', cleanup d = Ok d' /\
  (forall a b c x, collected d' a c -> collected d' b x -> di_label c <> ""%string -> di_label c = di_label x -> a = b) /\ (exists ctx, knows ctx d').
Proof. exact clean. Qed.
Example C37_case : conventions_ok [] /\ byte_source (image sums) /\ session (image sums) [] [(0x8000, small)] summed /\ ds_sym summed < 2 ^ 31 /\ within_banks (clean_of summed) /\
  cleanup summed = Ok (clean_of summed) /\ knows (names_of (clean_of summed)) (clean_of summed) /\
  map (fun kv => (fst kv, di_label (snd kv), i_mnem (di_instr (snd kv)))) (ds_map (clean_of summed)) =
  [(0x8000, "entry1"%string, PM_add); (0x8003, ""%string, M_sec); (0x8004, "label1"%string, M_sbc); (0x8006, ""%string, M_bne); (0x8008, ""%string, PM_add); (0x800B, ""%string, M_jmp)].
Proof.
  assert (CO := no_conventions). assert (BS : byte_source (image sums)) by (apply image_bytes; vm_compute; reflexivity).
  assert (SE : session (image sums) [] [(0x8000, small)] summed) by (apply after_ok; vm_compute; reflexivity).
  assert (SY : ds_sym summed < 2 ^ 31) by (vm_compute; reflexivity).
  assert (CL : cleanup summed = Ok (clean_of summed)) by (apply clean_is; vm_compute; reflexivity).
  split; [exact CO|]. split; [exact BS|]. split; [exact SE|]. split; [exact SY|]. split; [apply within_ok; vm_compute; reflexivity|]. split; [exact CL|].
  split; [exact (names_known _ _ _ _ _ CO BS SE SY CL)|]. vm_compute. reflexivity.
Qed.
Print Assumptions C37_succeeds.

(** What remains is an instruction of the disassembly, or CLC and ADC, or SEC and SBC, that
    follow each other, the second without a label.  Nothing else goes. *)
Theorem C37_folds : forall src rets q d d', conventions_ok rets -> byte_source src -> session src rets q d -> ds_sym d < 2 ^ 31 -> within_banks d' -> cleanup d = Ok d' ->
  (forall pc c', collected d' pc c' ->
    (exists c, collected d pc c /\ i_mnem (di_instr c') = i_mnem (di_instr c) /\ i_mode (di_instr c') = i_mode (di_instr c) /\ di_cur c' = di_cur c /\ di_next c' = di_next c) \/
    (exists c x, collected d pc c /\ collected d (same_bank_plus pc 1) x /\ di_label x = ""%string /\ pair_of (i_mnem (di_instr c)) (i_mnem (di_instr x)) (i_mnem (di_instr c')) /\
       i_mode (di_instr c') = i_mode (di_instr x) /\ di_cur c' = di_cur c /\ di_next c' = di_next x /\ forall v, ~ collected d' (same_bank_plus pc 1) v)) /\
  (forall pc c, collected d pc c ->
    (exists c', collected d' pc c' /\ (di_label c' = ""%string <-> di_label c = ""%string)) \/
    (exists p c0 c', same_bank_plus p 1 = pc /\ collected d p c0 /\ collected d' p c' /\ pair_of (i_mnem (di_instr c0)) (i_mnem (di_instr c)) (i_mnem (di_instr c')) /\ di_label c = ""%string)).
Proof. exact folds. Qed.
Print Assumptions C37_folds.

(** Each line of the listing, read with the labels of the listing, assembles to the bytes that
    the image has there. *)
Theorem C37_bytes : forall src rets q d d' ctx pc c, conventions_ok rets -> byte_source src -> session src rets q d -> ds_sym d < 2 ^ 31 -> within_banks d' -> cleanup d = Ok d' ->
  knows ctx d' -> collected d' pc c -> i_mnem (di_instr c) <> M_per ->
  exists l, instr_bytes pc ctx (as_read (di_instr c)) = Ok l /\ holds src pc l.
Proof. exact listing. Qed.
Print Assumptions C37_bytes.

(** PER $8010, which is shown with its displacement, and read back with that as its target. *)
Definition per_code : list Z := [0x62; 0x0D; 0x00; 0x60].
Definition per_seen : disassembler := fst (after (image per_code) [] [(0x8000, small)]).
Lemma holds_first : forall src pc b l, holds src pc (b :: l) -> exists r, src pc 4 = Ok (b :: r).
Proof. intros src pc b l H. remember (b :: l) as k eqn:E. revert b l E. induction H as [pc k r R|pc c k H1 IH1 H2 _]; intros b l E; [subst k; eexists; exact R|]. injection E as -> ->. apply (IH1 b []). reflexivity. Qed.
Lemma holds_second : forall src pc b c l, holds src pc (b :: c :: l) -> (exists r, src pc 4 = Ok (b :: c :: r)) \/ exists r, src (same_bank_plus pc 1) 4 = Ok (c :: r).
Proof. intros src pc b c l H. inversion H as [p k r R|p x k H1 H2]; subst; [left; eexists; exact R|right; exact (holds_first _ _ _ _ H2)]. Qed.
Theorem C37_per_refuted : ~ forall src rets q d d' ctx pc c, conventions_ok rets -> byte_source src -> session src rets q d -> ds_sym d < 2 ^ 31 -> within_banks d' -> cleanup d = Ok d' ->
  knows ctx d' -> collected d' pc c ->
  exists l, instr_bytes pc ctx (as_read (di_instr c)) = Ok l /\ holds src pc l.
Proof.
  intros H. assert (BS : byte_source (image per_code)) by (apply image_bytes; vm_compute; reflexivity).
  assert (SE : session (image per_code) [] [(0x8000, small)] per_seen) by (apply after_ok; vm_compute; reflexivity).
  assert (SY : ds_sym per_seen < 2 ^ 31) by (vm_compute; reflexivity).
  assert (CL : cleanup per_seen = Ok (clean_of per_seen)) by (apply clean_is; vm_compute; reflexivity).
  pose proof (names_known _ _ _ _ _ no_conventions BS SE SY CL) as KN.
  destruct (om_find 0x8000 (ds_map (clean_of per_seen))) as [c|] eqn:F; [|vm_compute in F; discriminate F].
  assert (WI : within_banks (clean_of per_seen)) by (apply within_ok; vm_compute; reflexivity).
  destruct (H _ _ _ _ _ _ 0x8000 c no_conventions BS SE SY WI CL KN F) as (l & IB & HO).
  assert (C : instr_bytes 0x8000 (names_of (clean_of per_seen)) (as_read (di_instr c)) = Ok [0x62; 0x0A; 0x80]) by (vm_compute in F; injection F as <-; vm_compute; reflexivity).
  rewrite C in IB. injection IB as <-. destruct (holds_second _ _ _ _ _ HO) as [(r & R)|(r & R)]; vm_compute in R; discriminate R.
Qed.
Print Assumptions C37_per_refuted.

(** A bank boundary between the two: CLC at C0FFFF, which is followed by the RTS at C00000, and
    ADC $12 at C10000, which is reached from C1FFFF. *)
Definition wrap_byte (a : Z) : Z :=
  if a =? 0xC0FFFF then 0x18 else if a =? 0xC00000 then 0x60 else if a =? 0xC10000 then 0x65 else if a =? 0xC10001 then 0x12 else if a =? 0xC10002 then 0x60 else 0xEA.
Definition wrap_source : source := fun a n => Ok (map (fun k => wrap_byte (same_bank_plus a (Z.of_nat k))) (seq 0 (Z.to_nat n))).
Definition wrap_seen : disassembler := fst (after wrap_source [] [(0xC1FFFF, small); (0xC0FFFF, small)]).
Lemma wrap_bytes : byte_source wrap_source.
Proof.
  intros a n l H. injection H as <-. apply Forall_forall. intros b IN. apply in_map_iff in IN. destruct IN as (k & <- & _). unfold wrap_byte.
  destruct (_ =? _); [lia|]. destruct (_ =? _); [lia|]. destruct (_ =? _); [lia|]. destruct (_ =? _); [lia|]. destruct (_ =? _); lia.
Qed.
Theorem C37_wrap_refuted : ~ forall src rets q d d' ctx pc c, conventions_ok rets -> byte_source src -> session src rets q d -> ds_sym d < 2 ^ 31 -> cleanup d = Ok d' ->
  knows ctx d' -> collected d' pc c -> i_mnem (di_instr c) <> M_per ->
  exists l, instr_bytes pc ctx (as_read (di_instr c)) = Ok l /\ holds src pc l.
Proof.
  intros H. assert (SE : session wrap_source [] [(0xC1FFFF, small); (0xC0FFFF, small)] wrap_seen) by (apply after_ok; vm_compute; reflexivity).
  assert (SY : ds_sym wrap_seen < 2 ^ 31) by (vm_compute; reflexivity).
  assert (CL : cleanup wrap_seen = Ok (clean_of wrap_seen)) by (apply clean_is; vm_compute; reflexivity).
  pose proof (names_known _ _ _ _ _ no_conventions wrap_bytes SE SY CL) as KN.
  destruct (om_find 0xC0FFFF (ds_map (clean_of wrap_seen))) as [c|] eqn:F; [|vm_compute in F; discriminate F].
  assert (C : i_mnem (di_instr c) = PM_add /\ instr_bytes 0xC0FFFF (names_of (clean_of wrap_seen)) (as_read (di_instr c)) = Ok [0x18; 0x65; 0x12]) by (vm_compute in F; injection F as <-; split; vm_compute; reflexivity).
  destruct C as [M C].
  destruct (H _ _ _ _ _ _ 0xC0FFFF c no_conventions wrap_bytes SE SY CL KN F) as (l & IB & HO); [rewrite M; discriminate|].
  rewrite C in IB. injection IB as <-. destruct (holds_second _ _ _ _ _ HO) as [(r & R)|(r & R)]; vm_compute in R; discriminate R.
Qed.
Print Assumptions C37_wrap_refuted.

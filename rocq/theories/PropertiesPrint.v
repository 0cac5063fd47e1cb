(** Properties of the text of disassembled instructions (nsasm/instruction.cc, Instruction::ToString, read back by
    nsasm/token.cc and nsasm/parse.cc). *)
From Verif Require Import Base ModelNumeric ModelAddress ModelMnemonic ModelExpr ModelAMode ModelState ModelInstr ModelToken ModelStatement ModelParse ModelMap ModelRom ModelDisasm
  Spec65816 SpecArith SpecInstr SpecState SpecFlow SpecDisasm SpecListing CleanProofs ReadProofs ListTextProofs SignLabelProofs DisCases PropertiesListing.
Open Scope list_scope.
Open Scope Z_scope.

(** ** C05.  The text of a decoded instruction, read as a line of assembly under the same flags,
    is that instruction again, and assembles to the bytes it was decoded from. *)
Theorem C05_roundtrip : forall op rest f j, bytes_ok (op :: rest) -> decode (op :: rest) f = Ok j -> is_relative op = false ->
  exists ts i, tokenize (instr_to_string j) = Ok ts /\ parse ts = Ok [PStmt (SInstr i)] /\ check_consistency i f = Ok tt /\ fix_addressing_mode i f = Ok j /\
    forall adr ctx, instr_bytes adr ctx j = Ok (firstn (Z.to_nat (instr_size j)) (op :: rest)).
Proof. exact roundtrip. Qed.
Definition mixed : flags := RawFlags B_off B_off B_on B_unknown.
Example C05_roundtrip_case : bytes_ok [0xBF; 0xAB; 0xCD; 0x7E] /\ (exists j, decode [0xBF; 0xAB; 0xCD; 0x7E] mixed = Ok j /\ is_relative 0xBF = false /\
  instr_to_string j = "lda $7ecdab, X"%string) /\ (exists j, decode [0x69; 0x34; 0x12] mixed = Ok j /\ instr_to_string j = "adc #$1234"%string).
Proof. split; [repeat constructor; lia|]. split; (eexists; split; [reflexivity|]); [split|]; reflexivity. Qed.
Print Assumptions C05_roundtrip.

(** Not so for relative branches and PER: the operand is shown as a number, which no line may
    have there. *)
Theorem C05_relative_refuted : ~ forall op rest f j, bytes_ok (op :: rest) -> decode (op :: rest) f = Ok j -> exists ts l, tokenize (instr_to_string j) = Ok ts /\ parse ts = Ok l.
Proof.
  intros H. destruct (H 0xD0 [0x05] mixed _ ltac:(repeat constructor; lia) eq_refl) as (ts & l & T & P).
  vm_compute in T. injection T as <-. vm_compute in P. discriminate P.
Qed.
Print Assumptions C05_relative_refuted.

(** In the listing, branches have labels instead.  Each line but PER, read with the labels of the
    listing, resolved in the state that the listing shows, assembles to the bytes of the image. *)
Theorem C05_listing : forall src rets q d d' ctx pc c, conventions_ok rets -> readable rets -> byte_source src -> session src rets q d -> ds_sym d < 2 ^ 31 -> within_banks d' ->
  cleanup d = Ok d' -> knows ctx d' -> collected d' pc c -> i_mnem (di_instr c) <> M_per ->
  exists ts i i' l, tokenize (instr_to_string (di_instr c)) = Ok ts /\ parse ts = Ok [PStmt (SInstr i)] /\
    (i_mnem (di_instr c) <> PM_add -> i_mnem (di_instr c) <> PM_sub -> check_consistency i (es_flags (di_cur c)) = Ok tt) /\
    fix_addressing_mode i (es_flags (di_cur c)) = Ok i' /\ instr_bytes pc ctx i' = Ok l /\ holds src pc l.
Proof. exact listing_text. Qed.
Example C05_listing_case : conventions_ok [] /\ readable [] /\ byte_source (image sums) /\ session (image sums) [] [(0x8000, small)] summed /\ ds_sym summed < 2 ^ 31 /\ within_banks (clean_of summed) /\
  cleanup summed = Ok (clean_of summed) /\ knows (names_of (clean_of summed)) (clean_of summed) /\
  map (fun kv => (fst kv, instr_to_string (di_instr (snd kv)))) (ds_map (clean_of summed)) =
  [(0x8000, "add.b #$05"); (0x8003, "sec"); (0x8004, "sbc.b #$01"); (0x8006, "bne label1"); (0x8008, "add.b $12"); (0x800B, "jmp entry1")]%string.
Proof.
  destruct C37_case as (A & B & C & D & E & F & G & _). split; [exact A|]. split; [intros t r X; discriminate X|]. do 6 (split; [assumption|]). vm_compute. reflexivity.
Qed.
Print Assumptions C05_listing.

(** A folded line may carry a size that contradicts its state: here ADC $12 is first reached with
    an 8 bit accumulator, from STA $18 at 8000, and then with a 16 bit one, from the CLC at 8001
    that is the operand of that STA. *)
Definition overlap : list Z := [0x85; 0x18; 0x65; 0x12; 0x60].
Definition wide : flags := RawFlags B_off B_off B_off B_unknown.
Definition overlapped : disassembler := fst (after (image overlap) [] [(0x8001, wide); (0x8000, small)]).
Theorem C05_folded_size_refuted : ~ forall src rets q d d' pc c ts i, conventions_ok rets -> readable rets -> byte_source src -> session src rets q d -> ds_sym d < 2 ^ 31 -> within_banks d' ->
  cleanup d = Ok d' -> collected d' pc c -> tokenize (instr_to_string (di_instr c)) = Ok ts -> parse ts = Ok [PStmt (SInstr i)] ->
  check_consistency i (es_flags (di_cur c)) = Ok tt.
Proof.
  intros H. assert (BS : byte_source (image overlap)) by (apply image_bytes; vm_compute; reflexivity).
  assert (SE : session (image overlap) [] [(0x8001, wide); (0x8000, small)] overlapped) by (apply after_ok; vm_compute; reflexivity).
  assert (SY : ds_sym overlapped < 2 ^ 31) by (vm_compute; reflexivity).
  assert (CL : cleanup overlapped = Ok (clean_of overlapped)) by (apply clean_is; vm_compute; reflexivity).
  destruct (om_find 0x8001 (ds_map (clean_of overlapped))) as [c|] eqn:F; [|vm_compute in F; discriminate F].
  assert (X : exists ts i e, tokenize (instr_to_string (di_instr c)) = Ok ts /\ parse ts = Ok [PStmt (SInstr i)] /\ check_consistency i (es_flags (di_cur c)) = Err e).
  { vm_compute in F. injection F as <-. eexists. eexists. eexists. split; [vm_compute; reflexivity|]. split; vm_compute; reflexivity. }
  destruct X as (ts & i & e & T & P & C).
  assert (WI : within_banks (clean_of overlapped)) by (apply within_ok; vm_compute; reflexivity).
  rewrite (H _ _ _ _ _ 0x8001 c ts i no_conventions ltac:(intros t r X; discriminate X) BS SE SY WI CL F T P) in C. discriminate C.
Qed.
Print Assumptions C05_folded_size_refuted.

(** ** C25.  There are no plus/minus labels: a line that starts with one, after any number of
    names with a colon, is rejected, and so is a branch to one. *)
Theorem C25_label_rejected : forall s t names rest, In s sign_labels -> sign_token s t -> exists e, parse (colon_names names ++ t :: rest) = Err e.
Proof. exact sign_label. Qed.
Theorem C25_branch_rejected : forall s t m sfx, In s sign_labels -> sign_token s t -> relative_branch m ->
  (exists e, parse (TMnem m :: [t; TEol]) = Err e) /\ exists e, parse (TMnem m :: TSuffix sfx :: [t; TEol]) = Err e.
Proof. exact sign_branch. Qed.
Example C25_case : In "++"%string sign_labels /\ sign_token "++"%string (TPunct P_plusplus) /\ relative_branch M_bra.
Proof. split; [cbn; tauto|]. split; [reflexivity|cbn; tauto]. Qed.
Print Assumptions C25_label_rejected.
Print Assumptions C25_branch_rejected.

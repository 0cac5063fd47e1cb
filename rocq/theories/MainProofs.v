(** The programs of util from their command lines. *)
From Verif Require Import Base BaseProofs ModelNumeric ModelAddress ModelExpr ModelState ModelMap ModelToken ModelRanges ModelModule ModelAssembler ModelRom ModelDisasm ModelTools ModelFile ModelMain
  SpecArith SpecText SpecNames SpecFlags SpecInstr SpecRom SpecMain MapProofs NameProofs RomProofs TextProofs ScanProofs.
Open Scope string_scope.
Open Scope list_scope.
Open Scope Z_scope.
Local Transparent span.

(** ** The requests. *)
Lemma byte_in : forall r a b, bytes_ok (rom_data r) -> in_rom r a b -> 0 <= b < 256.
Proof.
  intros r a b BO (off & _ & N). unfold nth_byte in N. destruct ((0 <=? off) && (off <? Z.of_nat (List.length (rom_data r)))) eqn:E; [|discriminate N].
  injection N as <-. apply andb_true_iff in E. red in BO. rewrite Forall_forall in BO. apply BO, nth_In. lia.
Qed.
Lemma high_read : forall r, exists e, rom_read r (2 ^ 24) 2 = Err e.
Proof. intros [[] data]; eexists; reflexivity. Qed.
Lemma word_cases : forall r v, bytes_ok (rom_data r) -> 0 <= v <= 2 ^ 24 ->
  (exists w, read_word (rom_read r) v = Ok w /\ 0 <= w < 2 ^ 16 /\ addr24 v /\ (forall a, (exists b0 b1, in_rom r v b0 /\ in_rom r (same_bank_plus v 1) b1 /\ a = b0 + 2 ^ 8 * b1) <-> a = w) /\ exists l, rom_read r v 2 = Ok l) \/
  (exists e, read_word (rom_read r) v = Err e /\ rom_read r v 2 = Err e /\ ~ (addr24 v /\ exists b0 b1, in_rom r v b0 /\ in_rom r (same_bank_plus v 1) b1)).
Proof.
  intros r v BO V. destruct (Z.eq_dec v (2 ^ 24)) as [->|NE].
  - right. destruct (high_read r) as [e E]. exists e. unfold read_word. rewrite E. split; [reflexivity|]. split; [reflexivity|]. intros [X _]. unfold addr24 in X. lia.
  - assert (A : addr24 v) by (unfold addr24; lia). destruct (read_values r v A) as (_ & W & _).
    destruct (rom_read_exact r v 2 A ltac:(lia)) as [EX [[l L]|[e E]]].
    + left. pose proof (proj1 (EX l) L) as [LEN _]. destruct l as [|b0 [|b1 [|b2 l]]]; try (cbn in LEN; lia).
      assert (RW : read_word (rom_read r) v = Ok (b0 + b1 * 256)) by (unfold read_word; rewrite L; reflexivity).
      exists (b0 + b1 * 256). split; [exact RW|]. destruct (proj1 (W _) RW) as (c0 & c1 & I0 & I1 & E). pose proof (byte_in _ _ _ BO I0). pose proof (byte_in _ _ _ BO I1).
      split; [change (2 ^ 8) with 256 in E; change (2 ^ 16) with 65536; lia|]. split; [exact A|]. split; [|eauto]. intros a. rewrite <- (W a), RW. split; [intros X; injection X as <-; reflexivity|intros ->; reflexivity].
    + right. exists e. assert (RW : read_word (rom_read r) v = Err e) by (unfold read_word; rewrite E; reflexivity). split; [exact RW|]. split; [exact E|].
      intros [_ (b0 & b1 & I0 & I1)]. assert (X : read_word (rom_read r) v = Ok (b0 + 2 ^ 8 * b1)) by (apply W; eauto). congruence.
Qed.
Lemma mk_high : forall v, 2 ^ 24 < v <= 0xffffffff -> mk_address v = UB UB_assert.
Proof. intros v V. unfold mk_address, to_uint32. rewrite Z.mod_small by lia. destruct (Z.leb_spec v 0x1000000); [lia|reflexivity]. Qed.
Lemma mk_low : forall v, 0 <= v <= 2 ^ 24 -> mk_address v = Ok v.
Proof. intros v V. unfold mk_address, to_uint32. rewrite Z.mod_small by lia. destruct (Z.leb_spec v 0x1000000); [reflexivity|lia]. Qed.
Definition text_of (s : string) : bool * string := match s with String "@" t => (true, t) | _ => (false, s) end.
Lemma text_iff : forall s t b, address_text s t b <-> text_of s = (b, t).
Proof.
  intros s t b. unfold address_text. destruct s as [|c s].
  - split; [intros [[_ X]|(-> & <- & _)]; [discriminate X|reflexivity]|]. cbn. intros X. injection X as <- <-. right. repeat split; discriminate.
  - destruct (ascii_dec c "@") as [->|N].
    + split; [intros [[-> X]|(_ & _ & X)]; [injection X as ->; reflexivity|destruct (X s eq_refl)]|]. cbn. intros X. injection X as <- <-. auto.
    + assert (E : text_of (String c s) = (false, String c s)) by (clear -N; destruct c as [[] [] [] [] [] [] [] []]; try reflexivity; exfalso; apply N; reflexivity).
      rewrite E. split; [intros [[_ X]|(-> & <- & _)]; [injection X as X _; contradiction|reflexivity]|].
      intros X. injection X as <- <-. right. repeat split. intros t' X. injection X as X _. contradiction.
Qed.
(** The insertion of requests. *)
Fixpoint insert_all (rs : list (Z * flags)) (m : omap flags) : omap flags :=
  match rs with [] => m | (a, f) :: rs' => insert_all rs' (om_insert a f m) end.
Definition same_outcome (msg : err -> string) (prog : string) (r : rom) (args : list string) (m : omap flags) (x : res (step (omap flags))) : Prop :=
  (exists rs, requests r args rs /\ x = Ok (Go (insert_all rs m))) \/
  (exists out, turned_down msg (disassemble_usage prog) r args out /\ x = Ok (Exit out 1)) \/
  (undefined_requests r args /\ exists u, x = UB u).
Lemma seeds_cases : forall n msg prog r args m, bytes_ok (rom_data r) -> (List.length args <= n)%nat ->
  same_outcome msg prog r args m (read_seeds msg prog (rom_read r) args m).
Proof.
  induction n as [|n IH]; intros msg prog r args m BO L.
  { destruct args; [|cbn in L; lia]. left. exists []. split; [constructor|reflexivity]. }
  destruct args as [|s [|mode args]]; [left; exists []; split; [constructor|reflexivity]|left; exists []; split; [constructor|reflexivity]|].
  cbn [read_seeds]. destruct (flags_from_name mode) as [f|] eqn:F.
  2:{ right; left. eexists. split; [|reflexivity]. apply td_mode. intros f M. apply (flags_from_name_iff mode f) in M. congruence. }
  assert (M : mode_named mode f) by (apply flags_from_name_iff; exact F).
  change (match s with String "@" t => (true, t) | _ => (false, s) end) with (text_of s). destruct (text_of s) as [ind t] eqn:T. apply text_iff in T.
  destruct (scan_hex_cases t) as [[SP E]|[(v & N & R & E)|[(v & N & R & E)|(NS & NN & E)]]]; rewrite E; cbn [scanned bind].
  - right; right. split; [|eauto]. eapply ur_here; eauto.
  - destruct (Z_le_gt_dec v (2 ^ 24)) as [LE|GT].
    2:{ right; right. split; [eapply ur_here; eauto; right; exists v; split; [exact N|lia]|]. destruct ind; rewrite (mk_high v) by lia; cbn; eauto. }
    rewrite (mk_low v) by lia. assert (NEXT : forall a, asked r s a -> same_outcome msg prog r (s :: mode :: args) m (read_seeds msg prog (rom_read r) args (om_insert a f m))).
    { intros a A. destruct (IH msg prog r args (om_insert a f m) BO ltac:(cbn in L; lia)) as [(rs & Q & X)|[(out & Q & X)|[Q X]]].
      - left. exists ((a, f) :: rs). split; [constructor; assumption|]. rewrite X. reflexivity.
      - right; left. exists out. split; [eapply td_later; eauto|exact X].
      - right; right. split; [eapply ur_later; eauto|exact X]. }
    destruct ind; cbn [bind].
    + destruct (word_cases r v BO ltac:(lia)) as [(w & W & WR & A24 & WI & _)|(e & W & RE & _)]; rewrite W.
      * rewrite (mk_low w) by lia. cbn [bind]. apply NEXT. exists t, true, v. split; [exact T|]. split; [exact N|]. split; [lia|]. split; [exact A24|]. apply WI. reflexivity.
      * right; left. exists [msg e]. split; [eapply td_read; eauto; lia|reflexivity].
    + apply NEXT. exists t, false, v. split; [exact T|]. split; [exact N|]. split; [lia|reflexivity].
  - right; right. split; [eapply ur_here; eauto; right; exists v; split; [exact N|lia]|eauto].
  - right; left. eexists. split; [|reflexivity]. eapply td_number; eauto.
Qed.
Lemma hex_known : known_base 16. Proof. red. auto. Qed.
Lemma dec_known : known_base 10. Proof. red. auto. Qed.
Lemma hex_exact : forall s, (forall v, scan_hex s = Ok (Scanned v) <-> number 16 s v /\ 0 <= v <= 0xffffffff) /\
  (scan_hex s = Ok Ended <-> spaces s) /\ (scan_hex s = Ok Mismatch <-> ~ spaces s /\ forall v, ~ number 16 s v) /\
  (scan_hex s = UB UB_overflow <-> exists v, number 16 s v /\ ~ 0 <= v <= 0xffffffff).
Proof. intros s. exact (scans_exact _ _ _ _ _ hex_known (scan_hex_cases s)). Qed.
Lemma dec_exact : forall s, (forall v, scan_dec s = Ok (Scanned v) <-> number 10 s v /\ int_min <= v <= int_max) /\
  (scan_dec s = Ok Ended <-> spaces s) /\ (scan_dec s = Ok Mismatch <-> ~ spaces s /\ forall v, ~ number 10 s v) /\
  (scan_dec s = UB UB_overflow <-> exists v, number 10 s v /\ ~ int_min <= v <= int_max).
Proof. intros s. exact (scans_exact _ _ _ _ _ dec_known (scan_dec_cases s)). Qed.

Lemma pair_seeds : forall msg prog r s mode args m a f, bytes_ok (rom_data r) -> asked r s a -> mode_named mode f ->
  read_seeds msg prog (rom_read r) (s :: mode :: args) m = read_seeds msg prog (rom_read r) args (om_insert a f m).
Proof.
  intros msg prog r s mode args m a f BO (t & ind & v & T & N & V & A) M. cbn [read_seeds]. rewrite (proj2 (flags_from_name_iff mode f) M).
  change (match s with String "@" t => (true, t) | _ => (false, s) end) with (text_of s). apply text_iff in T. rewrite T.
  assert (V2 : 0 <= v <= 0xffffffff) by (clear -V; lia). rewrite (proj2 (proj1 (hex_exact t) v) (conj N V2)). cbn [scanned bind]. rewrite (mk_low v) by exact V. destruct ind; cbn [bind].
  - destruct A as [A24 A]. destruct (word_cases r v BO V) as [(w & W & WR & _ & WI & _)|(e & _ & _ & X)].
    + rewrite W. apply WI in A. subst a. rewrite (mk_low w) by lia. reflexivity.
    + exfalso. apply X. split; [exact A24|]. destruct A as (b0 & b1 & I0 & I1 & _). eauto.
  - subst a. reflexivity.
Qed.
Lemma requests_run : forall msg prog r args rs m, bytes_ok (rom_data r) -> requests r args rs -> read_seeds msg prog (rom_read r) args m = Ok (Go (insert_all rs m)).
Proof.
  intros msg prog r args rs m BO H. revert m. induction H as [|s|s mode a f args rs A M H IH]; intros m; [reflexivity|reflexivity|].
  rewrite (pair_seeds _ _ _ _ _ _ _ _ _ BO A M). apply IH.
Qed.
Lemma turned_down_run : forall msg prog r args out m, bytes_ok (rom_data r) -> turned_down msg (disassemble_usage prog) r args out -> read_seeds msg prog (rom_read r) args m = Ok (Exit out 1).
Proof.
  intros msg prog r args out m BO H. revert m.
  induction H as [s mode args NM|s mode args f t ind M T NS NN|s mode args f t v e M T N V E|s mode args a f out A M H IH]; intros m.
  - cbn [read_seeds]. destruct (flags_from_name mode) as [f|] eqn:F; [|reflexivity]. exfalso. apply (NM f). apply flags_from_name_iff. exact F.
  - cbn [read_seeds]. rewrite (proj2 (flags_from_name_iff mode f) M). change (match s with String "@" t => (true, t) | _ => (false, s) end) with (text_of s). apply text_iff in T. rewrite T.
    rewrite (proj2 (proj1 (proj2 (proj2 (hex_exact t)))) (conj NS NN)). reflexivity.
  - cbn [read_seeds]. rewrite (proj2 (flags_from_name_iff mode f) M). change (match s with String "@" t => (true, t) | _ => (false, s) end) with (text_of s). apply text_iff in T. rewrite T.
    assert (V2 : 0 <= v <= 0xffffffff) by (clear -V; lia). rewrite (proj2 (proj1 (hex_exact t) v) (conj N V2)). cbn [scanned bind]. rewrite (mk_low v) by lia. cbn [bind]. unfold read_word. rewrite E. reflexivity.
  - rewrite (pair_seeds _ _ _ _ _ _ _ _ _ BO A M). apply IH.
Qed.
Lemma undefined_run : forall msg prog r args m, bytes_ok (rom_data r) -> undefined_requests r args -> exists u, read_seeds msg prog (rom_read r) args m = UB u.
Proof.
  intros msg prog r args m BO H. revert m. induction H as [s mode args f t ind M T C|s mode args a f A M H IH]; intros m.
  - cbn [read_seeds]. rewrite (proj2 (flags_from_name_iff mode f) M). change (match s with String "@" t => (true, t) | _ => (false, s) end) with (text_of s). apply text_iff in T. rewrite T.
    destruct (hex_exact t) as (X1 & X2 & X3 & X4). destruct C as [SP|(v & N & V)]; [rewrite (proj2 X2 SP); cbn; eauto|].
    destruct (Z_le_gt_dec 0 v) as [P|P]; [destruct (Z_le_gt_dec v 0xffffffff) as [Q|Q]|].
    + rewrite (proj2 (X1 v) (conj N (conj P Q))). cbn [scanned bind]. rewrite (mk_high v) by lia. destruct ind; cbn; eauto.
    + assert (V2 : ~ 0 <= v <= 0xffffffff) by lia; rewrite (proj2 X4 (ex_intro _ v (conj N V2))). cbn. eauto.
    + assert (V2 : ~ 0 <= v <= 0xffffffff) by lia; rewrite (proj2 X4 (ex_intro _ v (conj N V2))). cbn. eauto.
  - destruct (IH (om_insert a f m)) as [u U]. exists u. rewrite (pair_seeds _ _ _ _ _ _ _ _ _ BO A M). exact U.
Qed.
(** ** The map of requests. *)
Lemma first_iff : forall rs a f, first_asked rs a f <-> om_find a rs = Some f.
Proof.
  intros rs a f. split.
  - intros (l & l' & -> & N). induction l as [|[b g] l IH]; cbn [app om_find]; [rewrite Z.eqb_refl; reflexivity|].
    destruct (Z.eqb_spec b a) as [->|NE]; [destruct (N g); left; reflexivity|]. apply IH. intros h X. apply (N h). right. exact X.
  - induction rs as [|[b g] rs IH]; intros H; cbn [om_find] in H; [discriminate H|]. destruct (Z.eqb_spec b a) as [->|NE].
    + injection H as ->. exists [], rs. split; [reflexivity|]. intros g [].
    + destruct (IH H) as (l & l' & -> & N). exists ((b, g) :: l), l'. split; [reflexivity|]. intros h [X|X]; [congruence|exact (N h X)].
Qed.
Lemma insert_find : forall rs m a, sorted_keys m -> om_find a (insert_all rs m) = match om_find a m with Some f => Some f | None => om_find a rs end.
Proof.
  induction rs as [|[b g] rs IH]; intros m a S; cbn [insert_all]; [cbn; destruct (om_find a m); reflexivity|].
  rewrite IH by (apply om_insert_sorted; exact S). rewrite om_find_insert by exact S. cbn [om_find]. destruct (Z.eqb_spec b a) as [->|NE]; [|reflexivity]. destruct (om_find a m); reflexivity.
Qed.
Lemma insert_sorted : forall rs m, sorted_keys m -> sorted_keys (insert_all rs m).
Proof. induction rs as [|[b g] rs IH]; intros m S; cbn [insert_all]; [exact S|]. apply IH, om_insert_sorted, S. Qed.
Lemma sorted_iff : forall A (m : omap A), sorted_keys m <-> forall l1 a f l2 b g l3, m = l1 ++ (a, f) :: l2 ++ (b, g) :: l3 -> a < b.
Proof.
  intros A m. split.
  - intros S l1. revert m S. induction l1 as [|[c h] l1 IH]; intros m S a f l2 b g l3 ->; cbn in S; destruct S as [S1 S2].
    + apply (S1 b g). apply in_or_app. right. left. reflexivity.
    + eapply IH; [exact S2|reflexivity].
  - induction m as [|[a f] m IH]; intros H; [exact Logic.I|]. split.
    + intros b g X. apply in_split in X. destruct X as (l2 & l3 & ->). apply (H [] a f l2 b g l3). reflexivity.
    + apply IH. intros l1 b g l2 c h l3 ->. apply (H ((a, f) :: l1) b g l2 c h l3). reflexivity.
Qed.
Lemma holds_iff : forall m rs, holds_requests m rs <-> m = insert_all rs [].
Proof.
  intros m rs. assert (S0 : sorted_keys (insert_all rs [])) by (apply insert_sorted; exact Logic.I). split.
  - intros [S H]. apply sorted_iff in S. apply sorted_ext; [exact S|exact S0|]. intros a. rewrite insert_find by exact Logic.I. cbn [om_find].
    destruct (om_find a m) as [f|] eqn:E.
    + apply om_find_in in E. apply H in E. apply first_iff in E. congruence.
    + destruct (om_find a rs) as [f|] eqn:E'; [|reflexivity]. apply first_iff in E'. apply H in E'. destruct (om_find_none _ _ _ E f E').
  - intros ->. split; [apply sorted_iff; exact S0|]. intros a f. rewrite first_iff. split.
    + intros X. apply om_in_find in X; [|exact S0]. rewrite insert_find in X by exact Logic.I. exact X.
    + intros X. apply om_find_in. rewrite insert_find by exact Logic.I. exact X.
Qed.

(** ** Files. *)
Lemma bytes_same : forall t, has_bytes_of t (bytes_of t).
Proof. unfold has_bytes_of. induction t as [|c t IH]; [reflexivity|]. cbn. f_equal; [|exact IH]. unfold code, nat_of_ascii. rewrite N_nat_Z. reflexivity. Qed.
Lemma file_bytes : forall t, bytes_ok (bytes_of t).
Proof. intros t. rewrite (bytes_same t). apply Forall_forall. intros b X. apply in_map_iff in X. destruct X as (c & <- & _). pose proof (nat_ascii_bounded c). lia. Qed.
Lemma image_iff : forall disk path r, image_at disk path r <-> exists t, disk path = Some t /\ load_rom (bytes_of t) = Ok r.
Proof.
  intros disk path r. unfold image_at. split.
  - intros (t & l & D & -> & L). exists t. split; [exact D|]. rewrite (bytes_same t). exact L.
  - intros (t & D & L). exists t, (bytes_of t). split; [exact D|]. split; [apply bytes_same|exact L].
Qed.
Lemma image_open : forall disk path r msg no_file intro, image_at disk path r <-> open_rom disk msg no_file intro path = Ok (Go r).
Proof.
  intros disk path r msg no_file intro. rewrite image_iff. unfold open_rom. split.
  - intros (t & -> & ->). reflexivity.
  - destruct (disk path) as [t|]; [|discriminate]. destruct (load_rom (bytes_of t)) as [r'|e|u|] eqn:L; try discriminate. intros X. injection X as ->. eauto.
Qed.
Lemma image_bytes_ok : forall disk path r, image_at disk path r -> bytes_ok (rom_data r).
Proof.
  intros disk path r H. apply image_iff in H. destruct H as (t & _ & L). apply load_exact in L. destruct L as (data & (h & E & _) & -> & _).
  pose proof (file_bytes t) as F. rewrite E in F. unfold bytes_ok in *. apply Forall_app in F. apply F.
Qed.
Lemma files_open : forall disk no_file paths files, files_at disk paths files <-> open_files disk no_file paths = Go files.
Proof.
  intros disk no_file paths. unfold files_at. induction paths as [|p paths IH]; intros files; cbn [open_files].
  - split; [intros H; inversion H; reflexivity|intros H; injection H as <-; constructor].
  - split.
    + intros H. inversion H as [|p' f ps fs (t & D & R) T]; subst. rewrite D. apply IH in T. rewrite T. reflexivity.
    + destruct (disk p) as [t|] eqn:D; [|discriminate]. destruct (open_files disk no_file paths) as [fs|out c] eqn:O; [|discriminate]. intros X. injection X as <-. constructor; [eauto|]. apply IH. reflexivity.
Qed.

(** ** The programs. *)
Lemma disassemble_main_eq : forall fuel disk msg no_file prog path s mode args r, image_at disk path r ->
  quick_disassemble_main fuel disk msg no_file prog (path :: s :: mode :: args) =
  let* x := read_seeds msg prog (rom_read r) (s :: mode :: args) [] in
  match x with Exit out c => Ok (out, c)
  | Go seeds => let* out := quick_disassemble fuel msg (rom_read r) seeds in let* c := disassemble_status fuel msg (rom_read r) seeds in Ok (out, c) end.
Proof. intros. unfold quick_disassemble_main. rewrite (proj1 (image_open disk path r msg no_file "") H). reflexivity. Qed.
Lemma main_runs : forall fuel disk msg no_file prog path s mode args r rs seeds, image_at disk path r -> requests r (s :: mode :: args) rs -> holds_requests seeds rs ->
  forall out c, quick_disassemble_main fuel disk msg no_file prog (path :: s :: mode :: args) = Ok (out, c) <->
    exists d left lines, run_passes 100 fuel msg (rom_read r) seeds new_disassembler [] = Ok (d, left, lines) /\
      ((exists d', cleanup d = Ok d' /\ out = lines ++ listing (ds_map d') /\ c = 0) \/ (exists e, cleanup d = Err e /\ out = lines ++ [msg e] /\ c = 1)).
Proof.
  intros fuel disk msg no_file prog path s mode args r rs seeds IM RQ HR out c. rewrite (disassemble_main_eq _ _ _ _ _ _ _ _ _ _ IM).
  rewrite (requests_run _ _ _ _ _ _ (image_bytes_ok _ _ _ IM) RQ). cbn [bind]. apply holds_iff in HR. rewrite <- HR. unfold quick_disassemble, disassemble_status.
  destruct (run_passes 100 fuel msg (rom_read r) seeds new_disassembler []) as [[[d left] lines]|e|u|]; cbn [bind]; try (split; [discriminate|intros (d & left & lines & X & _); discriminate X]).
  destruct (cleanup d) as [d'|e|u|] eqn:C; cbn [bind].
  - split; [intros X; injection X as <- <-; exists d, left, lines; split; [reflexivity|]; left; eauto|]. intros (d0 & l0 & ls & X & Y). injection X as -> -> ->. rewrite C in Y. destruct Y as [(d1 & Y & -> & ->)|(e & Y & _)]; [injection Y as ->; reflexivity|discriminate Y].
  - split; [intros X; injection X as <- <-; exists d, left, lines; split; [reflexivity|]; right; eauto|]. intros (d0 & l0 & ls & X & Y). injection X as -> -> ->. rewrite C in Y. destruct Y as [(d1 & Y & _)|(e1 & Y & -> & ->)]; [discriminate Y|injection Y as ->; reflexivity].
  - split; [discriminate|]. intros (d0 & l0 & ls & X & Y). injection X as -> -> ->. rewrite C in Y. destruct Y as [(d1 & Y & _)|(e1 & Y & _)]; discriminate Y.
  - split; [discriminate|]. intros (d0 & l0 & ls & X & Y). injection X as -> -> ->. rewrite C in Y. destruct Y as [(d1 & Y & _)|(e1 & Y & _)]; discriminate Y.
Qed.
Lemma main_turned_down : forall fuel disk msg no_file prog path s mode args r out, image_at disk path r -> turned_down msg (disassemble_usage prog) r (s :: mode :: args) out ->
  quick_disassemble_main fuel disk msg no_file prog (path :: s :: mode :: args) = Ok (out, 1).
Proof. intros. rewrite (disassemble_main_eq _ _ _ _ _ _ _ _ _ _ H). rewrite (turned_down_run _ _ _ _ _ _ (image_bytes_ok _ _ _ H) H0). reflexivity. Qed.
Lemma main_undefined : forall fuel disk msg no_file prog path s mode args r, image_at disk path r -> undefined_requests r (s :: mode :: args) ->
  exists u, quick_disassemble_main fuel disk msg no_file prog (path :: s :: mode :: args) = UB u.
Proof. intros. rewrite (disassemble_main_eq _ _ _ _ _ _ _ _ _ _ H). destruct (undefined_run msg prog _ _ [] (image_bytes_ok _ _ _ H) H0) as [u ->]. eexists. reflexivity. Qed.
Lemma requests_cases : forall msg prog disk path r args, image_at disk path r ->
  (exists rs, requests r args rs) \/ (exists out, turned_down msg (disassemble_usage prog) r args out) \/ undefined_requests r args.
Proof.
  intros msg prog disk path r args IM. destruct (seeds_cases _ msg prog r args [] (image_bytes_ok _ _ _ IM) (Nat.le_refl _)) as [(rs & Q & _)|[(out & Q & _)|[Q _]]]; eauto.
Qed.

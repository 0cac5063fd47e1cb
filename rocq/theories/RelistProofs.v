(** Proofs about assembling a listing. *)
From Verif Require Import Base ModelNumeric ModelAddress ModelMnemonic ModelExpr ModelAMode ModelOpcode ModelState ModelInstr ModelToken ModelStatement ModelParse ModelMap ModelModule ModelAssembler
  SpecArith SpecText SpecState SpecScope SpecLayout SpecAssemble SpecFlow BaseProofs MapProofs ArithProofs LoadProofs ScopeProofs LayoutProofs AssembleProofs ProgramProofs
  FlowProofs FlowRunProofs FlowArriveProofs FlowKindProofs ModelDisasm PrintProofs ModelTools ToolTextProofs.
Open Scope string_scope.
Open Scope list_scope.
Open Scope Z_scope.
Local Opaque check_consistency parse tokenize instr_to_string encode_opcode execute_in execute_branch.

(** ** Every instruction that is assembled fits the flags recorded with it. *)
Lemma program_checked : forall fuel sk files ws a n file m src k l i, assemble fuel sk files = (ws, Ok a) ->
  nth_error files n = Some file -> nth_error (as_mods a) n = Some m -> SpecScope.reads file src ->
  nth_error (md_lines m) k = Some l -> stmt_at src k (SInstr i) -> exists u, check_consistency i (es_flags (ln_in l)) = Ok u.
Proof.
  intros fuel sk files ws a n file m src k l i H NF NM RD L ST.
  destruct (program_analysed _ _ _ _ _ _ _ _ _ H NF NM RD) as (m0 & name & ls & LD & EM & LP & EA).
  destruct (loop_inv m0 (fun _ _ => True) (entry_at m0) (fun V ls st => map core2 ls = map core2 (md_lines m0))) with
    (fuel := fuel) (V := nowhere) (ls := md_lines m0) (st := entry_states 0 (md_lines m0) []) (ls' := ls) as (V & IV & CO); auto.
  - intros k0 s1 s2 _ _. exact I.
  - intros V l0 k0 s rest lx st' C S LL NV O S'. rewrite zset_core2; assumption.
  - intros k0 l0 s j s' L0 P F. exact I.
  - eapply start_inv; [exact EM|intros k0 s1 s2 _ _; exact I|]. auto.
  - assert (LL : exists l0, znth ls (Z.of_nat k) = Some l0 /\ ends_as l0 l).
    { rewrite <- nat_znth. clear - EA L. revert k L. induction EA as [|x y ls0 ls' R F IH]; intros k L; [destruct k; discriminate L|].
      destruct k as [|k]; cbn in *; [injection L as <-; eauto|eauto]. }
    destruct LL as (l0 & L0 & EI & ER & ES). destruct (core_nth _ _ _ _ CO L0) as (l1 & L1 & C1). rewrite EM in L1. destruct (line_stmt _ _ _ _ L1) as [_ ST1].
    rewrite Nat2Z.id in ST1. unfold stmt_at in ST, ST1. rewrite ST in ST1. injection ST1 as ST1. unfold core2 in C1. injection C1 as C1 _. rewrite C1, <- ST1 in ES. destruct ES as (R0 & _).
    pose proof (v_reached _ _ _ _ _ _ IV _ _ L0 R0) as HV. destruct (v_visited _ _ _ _ _ _ IV _ _ HV) as (_ & l2 & L2 & _ & [s' E] & _). assert (l2 = l0) as -> by congruence.
    rewrite C1, <- ST1 in E. rewrite EI. eapply executed_checked. exact E.
Qed.

(** ** The statements of the assembled listing. *)
Definition with_own (c : dinstr) (i : instr) : statement := SInstr (with_mode (i_mode (di_instr c)) i).
Definition pins (kv : Z * dinstr) (i : instr) : Prop :=
  i_mnem i = i_mnem (di_instr (snd kv)) /\ 0 < instr_size (di_instr (snd kv)) /\ forall f m' u, check_consistency i f = Ok u -> settled f (i_mode i) m' -> m' = i_mode (di_instr (snd kv)).
Definition resolved_ok (s : statement) (l : line) : Prop := resolved s l /\ forall i, s = SInstr i -> exists u, check_consistency i (es_flags (ln_in l)) = Ok u.
Lemma resolved_own : forall kv i l, pins kv i -> resolved_ok (SInstr i) l -> ln_stmt l = with_own (snd kv) i.
Proof. intros kv i l (_ & _ & P) [(_ & m' & S & E) C]. destruct (C i eq_refl) as [u U]. rewrite E, (P _ _ _ U S). reflexivity. Qed.
Lemma resolved_stmts : forall m is, Forall2 pins m is -> forall pc ls, Forall2 resolved_ok (map snd (src_of (fun _ => SInstr) pc m is)) ls ->
  map ln_stmt ls = map snd (src_of with_own pc m is).
Proof.
  intros m is F. induction F as [|[a c] i m is P F IH]; intros pc ls R; [inversion R; reflexivity|]. cbn [src_of] in *. rewrite !map_app in R.
  apply Forall2_app_inv_l in R. destruct R as (l1 & l2 & R1 & R2 & ->). apply Forall2_app_inv_l in R2. destruct R2 as (l3 & l4 & R3 & R4 & ->).
  rewrite !map_app, (IH _ _ R4). f_equal; [|f_equal].
  - destruct (a =? pc); inversion R1 as [|? ? ? ? X Y]; subst; [reflexivity|]. inversion Y; subst. destruct X as [X _]. cbn in X. cbn. rewrite X. reflexivity.
  - unfold entry_src in *. destruct (di_entry c).
    + inversion R3 as [|? ? ? ? X Y]; subst. inversion Y as [|? ? ? ? X' Y']; subst. inversion Y'; subst. destruct X as [X _]. cbn in X. cbn. rewrite X, (resolved_own (a, c) _ _ P X'). reflexivity.
    + inversion R3 as [|? ? ? ? X Y]; subst. inversion Y; subst. cbn. rewrite (resolved_own (a, c) _ _ P X). reflexivity.
Qed.

(** ** Where they are. *)
Lemma org_stmt_at : forall a, addr24 a -> org_at (org_stmt a) a.
Proof.
  intros a A. unfold addr24 in A. exists (Directive D_org (Some (ELit a T_long)) default_flags RC_default []), (ELit a T_long), a. split; [reflexivity|]. split; [reflexivity|]. split; [reflexivity|].
  split; [constructor|]. split; [symmetry; apply Z.mod_small; change (2 ^ 32) with 4294967296; change (2 ^ 24) with 16777216 in A; lia|lia].
Qed.
Lemma org_next : forall ss a, addr24 a -> next_address (ss ++ [org_stmt a]) (Some a).
Proof. intros ss a A. replace (Some a) with (Some (a mod 2 ^ 24)) by (f_equal; apply Z.mod_small; exact A). apply na_org. apply org_stmt_at. exact A. Qed.
Lemma entry_not : forall d g, d <> D_entry -> ~ is_dir d (entry_stmt g).
Proof. intros d g N (dir & E & D). injection E as <-. cbn in D. congruence. Qed.
Lemma own_not : forall d c i, ~ is_dir d (with_own c i).
Proof. intros d c i (dir & E & _). discriminate E. Qed.
Lemma own_size : forall kv i, pins kv i -> stmt_size (with_own (snd kv) i) = instr_size (di_instr (snd kv)).
Proof. intros kv i [M _]. unfold with_own. cbn [stmt_size]. unfold instr_size, with_mode. cbn [i_mode i_mnem]. rewrite M. reflexivity. Qed.
Lemma plus_0 : forall a, addr24 a -> same_bank_plus a 0 = a.
Proof. intros a A. rewrite <- add_wrapped_spec by exact A. rewrite add_wrapped_spec by exact A. unfold same_bank_plus, bank_of, offset_of, addr24 in *. change (2 ^ 16) with 65536 in *. Z.div_mod_to_equations. lia. Qed.

Fixpoint end_of (pc : Z) (m : omap dinstr) : Z := match m with [] => pc | (a, c) :: m' => end_of (add_wrapped a (instr_size (di_instr c))) m' end.
Lemma src_of_snoc : forall m1 is1 m2 is2, List.length m1 = List.length is1 -> forall mk pc, src_of mk pc (m1 ++ m2) (is1 ++ is2) = src_of mk pc m1 is1 ++ src_of mk (end_of pc m1) m2 is2.
Proof.
  induction m1 as [|[a c] m1 IH]; intros [|i is1] m2 is2 L mk pc; try discriminate L; [reflexivity|]. cbn [src_of app end_of]. injection L as L.
  rewrite (IH is1 m2 is2 L mk), <- !app_assoc. reflexivity.
Qed.
(** The address before the instruction of an entry. *)
Lemma org_part : forall pc a ss, addr24 a -> next_address ss (Some pc) -> next_address (ss ++ map snd (if a =? pc then [] else [([] : list (string * bool), org_stmt a)])) (Some a).
Proof. intros pc a ss A N. destruct (Z.eqb_spec a pc) as [->|]; cbn [map]; [rewrite app_nil_r; exact N|]. apply org_next. exact A. Qed.
Lemma entry_part : forall a c i ss, pins (a, c) i -> addr24 a -> next_address ss (Some a) -> next_address (ss ++ map snd (entry_src c (with_own c i))) (Some (add_wrapped a (instr_size (di_instr c)))).
Proof.
  intros a c i ss P A N. rewrite add_wrapped_spec by exact A. pose proof (own_size (a, c) i P) as SZ. cbn [snd] in SZ. rewrite <- SZ. unfold entry_src. destruct (di_entry c); cbn [map snd].
  - change [entry_stmt (entry_flags (es_flags (di_cur c))); with_own c i] with ([entry_stmt (entry_flags (es_flags (di_cur c)))] ++ [with_own c i]). rewrite app_assoc. apply na_later; [|apply own_not].
    rewrite <- (plus_0 a A). apply (na_later ss (entry_stmt _) a N). apply entry_not. discriminate.
  - apply na_later; [exact N|apply own_not].
Qed.
Lemma end_next : forall m is, Forall2 pins m is -> (forall a c, In (a, c) m -> addr24 a) -> forall pc ss, next_address ss (Some pc) -> next_address (ss ++ map snd (src_of with_own pc m is)) (Some (end_of pc m)).
Proof.
  intros m is F. induction F as [|[a c] i m is P F IH]; intros A pc ss N; [cbn; rewrite app_nil_r; exact N|]. cbn [src_of end_of]. rewrite !map_app, app_assoc, app_assoc.
  apply IH; [intros b x IN; apply (A b x); right; exact IN|]. apply entry_part; [exact P|apply (A a c); left; reflexivity|]. apply org_part; [apply (A a c); left; reflexivity|exact N].
Qed.

(** ** The writes. *)
Lemma line_value : forall mm lsb l ls a, md_lines mm = lsb ++ l :: ls -> addresses_hold mm -> ~ is_dir D_org (ln_stmt l) -> ~ is_dir D_equ (ln_stmt l) -> next_address (map ln_stmt lsb) (Some a) -> ln_value l = Some a.
Proof.
  intros mm lsb l ls a E AH N1 N2 NX. apply (AH (List.length lsb) l a); [rewrite E, nth_error_app2, Nat.sub_diag by lia; reflexivity|exact N2|].
  exists (map ln_stmt lsb), (ln_stmt l), (map ln_stmt ls). rewrite E, map_app. split; [reflexivity|]. split; [apply map_length|]. right. auto.
Qed.
Definition written (asm : assembler) (mm : module) (kv : Z * dinstr) (i : instr) (w : write) : Prop :=
  fst w = fst kv /\ zlen (snd w) = instr_size (di_instr (snd kv)) /\ exists k l, nth_error (md_lines mm) k = Some l /\ stmt_bytes (fst w) (context asm mm l) (with_own (snd kv) i) = Ok (Some (snd w)).
Lemma writes_match : forall (P : Z * dinstr -> instr -> Prop) asm mm, (forall kv i, P kv i -> pins kv i /\ addr24 (fst kv)) -> addresses_hold mm ->
  forall m is, Forall2 P m is -> forall pc lsb ls ws, md_lines mm = lsb ++ ls -> next_address (map ln_stmt lsb) (Some pc) ->
  map ln_stmt ls = map snd (src_of with_own pc m is) -> Forall2 (writes_line asm mm) (filter has_bytes ls) ws ->
  Forall2 (fun kv w => exists i, P kv i /\ written asm mm kv i w) m ws.
Proof.
  intros P asm mm HP AH m is F. induction F as [|[a c] i m is PI F IH]; intros pc lsb ls ws E NX ST W.
  - destruct ls; [|discriminate ST]. cbn in W. inversion W. constructor.
  - destruct (HP _ _ PI) as [PN A]. cbn [fst] in A. cbn [src_of] in ST.
    assert (SP : exists l1 l2, ls = l1 ++ l2 /\ map ln_stmt l1 = map snd (if a =? pc then [] else [([] : list (string * bool), org_stmt a)]) /\ map ln_stmt l2 = map snd (entry_src c (with_own c i) ++ src_of with_own (add_wrapped a (instr_size (di_instr c))) m is)).
    { rewrite map_app in ST. apply map_eq_app in ST. destruct ST as (l1 & l2 & -> & S1 & S2). eauto. }
    destruct SP as (l1 & l2 & -> & S1 & S2). rewrite map_app in S2. apply map_eq_app in S2. destruct S2 as (l3 & l4 & -> & S3 & S4).
    assert (W1 : filter has_bytes l1 = []).
    { destruct (a =? pc); [destruct l1; [reflexivity|discriminate S1]|]. destruct l1 as [|x [|y l1]]; try discriminate S1. cbn in S1. injection S1 as S1. cbn [filter]. unfold has_bytes. rewrite S1. reflexivity. }
    pose proof (org_part pc a _ A NX) as N1. rewrite <- S1, <- map_app in N1.
    assert (L3 : exists l5 l, l3 = l5 ++ [l] /\ ln_stmt l = with_own c i /\ filter has_bytes l5 = [] /\ next_address (map ln_stmt ((lsb ++ l1) ++ l5)) (Some a)).
    { unfold entry_src in S3. destruct (di_entry c); cbn [map snd] in S3.
      - destruct l3 as [|x [|y [|z l3]]]; try discriminate S3. cbn in S3. injection S3 as S3 S5. exists [x], y. split; [reflexivity|]. split; [exact S5|]. split; [cbn [filter]; unfold has_bytes; rewrite S3; reflexivity|].
        rewrite map_app. cbn [map]. rewrite S3. rewrite <- (plus_0 a A). apply (na_later _ (entry_stmt _) a N1). apply entry_not. discriminate.
      - destruct l3 as [|x [|y l3]]; try discriminate S3. cbn in S3. injection S3 as S3. exists [], x. split; [reflexivity|]. split; [exact S3|]. split; [reflexivity|]. rewrite app_nil_r. exact N1. }
    destruct L3 as (l5 & l & -> & SL & W5 & N5).
    assert (HB : has_bytes l = true) by (unfold has_bytes; rewrite SL, (own_size (a, c) i PN : stmt_size (with_own c i) = instr_size (di_instr c)); apply Z.ltb_lt; apply PN).
    rewrite !filter_app, W1, W5 in W. cbn [app filter] in W. rewrite HB in W. cbn [app] in W. inversion W as [|? w ? ws' W0 W']; subst.
    assert (LV : ln_value l = Some a).
    { apply (line_value mm ((lsb ++ l1) ++ l5) l l4 a); [rewrite E, <- !app_assoc; reflexivity|exact AH|rewrite SL; apply own_not|rewrite SL; apply own_not|exact N5]. }
    destruct W0 as (V & _ & SB & LN). rewrite LV in V. injection V as V. rewrite SL in SB, LN. constructor.
    + exists i. split; [exact PI|]. split; [symmetry; exact V|]. split; [unfold zlen; rewrite LN; apply (own_size (a, c) i PN)|].
      exists (List.length ((lsb ++ l1) ++ l5)), l. split; [|exact SB]. rewrite E. replace (lsb ++ l1 ++ (l5 ++ [l]) ++ l4) with (((lsb ++ l1) ++ l5) ++ l :: l4) by (rewrite <- !app_assoc; reflexivity).
      rewrite nth_error_app2, Nat.sub_diag by lia. reflexivity.
    + apply (IH (add_wrapped a (instr_size (di_instr c))) (((lsb ++ l1) ++ l5) ++ [l]) l4 ws'); [rewrite E, <- !app_assoc; reflexivity| |exact S4|exact W'].
      rewrite add_wrapped_spec by exact A. pose proof (own_size (a, c) i PN) as SZ. cbn [snd] in SZ. rewrite <- SZ, map_app. cbn [map]. rewrite SL. apply na_later; [exact N5|apply own_not].
Qed.

(** ** The names. *)
Lemma src_length : forall mk mk' m is pc, List.length (src_of mk pc m is) = List.length (src_of mk' pc m is).
Proof.
  intros mk mk'. induction m as [|[a c] m IH]; intros [|i is] pc; try reflexivity. cbn [src_of]. rewrite !app_length, (IH is). f_equal. f_equal. unfold entry_src. destruct (di_entry c); reflexivity.
Qed.
Definition quiet (s : statement) : Prop := ~ is_dir D_begin s.
Lemma src_quiet : forall m is pc s, In s (map snd (src_of (fun _ => SInstr) pc m is)) -> quiet s.
Proof.
  induction m as [|[a c] m IH]; intros [|i is] pc s IN; try destruct IN. cbn [src_of] in IN. rewrite !map_app in IN. apply in_app_or in IN. destruct IN as [IN|IN]; [|apply in_app_or in IN; destruct IN as [IN|IN]].
  - destruct (a =? pc); cbn in IN; [destruct IN|]. destruct IN as [<-|[]]. intros (d & E & D). injection E as <-. discriminate D.
  - unfold entry_src in IN. destruct (di_entry c); cbn in IN; repeat (destruct IN as [<-|IN]); try destruct IN; intros (d & E & D); try discriminate E. injection E as <-. discriminate D.
  - eapply IH. exact IN.
Qed.
Lemma quiet_closed : forall before b, (forall s, In s before -> quiet s) -> ~ open_at before b.
Proof. intros before b Q (pre & s & mid & -> & B & _). apply (Q s); [apply in_or_app; right; left; reflexivity|exact B]. Qed.
Lemma app_same : forall A (a b c d : list A), List.length a = List.length c -> a ++ b = c ++ d -> a = c /\ b = d.
Proof. intros A. induction a as [|x a IH]; intros b [|y c] d L E; try discriminate L; [auto|]. cbn in *. injection E as -> E. destruct (IH b c d ltac:(congruence) E) as [-> ->]. auto. Qed.
Lemma listing_names : forall file m is mm asm l k m0, Forall2 pins m is -> (forall a c, In (a, c) m -> addr24 a) -> addresses_hold mm ->
  load_asm_file file = Ok m0 -> SpecScope.reads file (listing_src (fun _ => SInstr) m is) -> same_scopes m0 mm -> map ln_stmt (md_lines mm) = map snd (listing_src with_own m is) ->
  nth_error (md_lines mm) k = Some l -> forall a c, In (a, c) m -> di_label c <> "" -> context asm mm l (FullId None (di_label c)) = Ok a.
Proof.
  intros file m is mm asm l k m0 F A AH LD RD SS ST LK a c IN NE. set (src := listing_src (fun _ => SInstr) m is) in *.
  assert (QS : forall s, In s (map snd src) -> quiet s).
  { intros s IS. unfold src, listing_src in IS. destruct m as [|[a0 c0] m]; [destruct IS|]. destruct IS as [<-|IS]; [intros (d & E & D); injection E as <-; discriminate D|eapply src_quiet; exact IS]. }
  assert (LEN : List.length (md_lines mm) = List.length src).
  { rewrite <- (map_length ln_stmt), ST, map_length. unfold src, listing_src. destruct m as [|[a0 c0] m]; [reflexivity|]. cbn [List.length]. f_equal. apply src_length. }
  destruct (in_split _ _ IN) as (m1 & m2 & EM).
  assert (SPL : exists is1 i is2, is = is1 ++ i :: is2 /\ Forall2 pins m1 is1 /\ pins (a, c) i).
  { rewrite EM in F. apply Forall2_app_inv_l in F. destruct F as (is1 & r & F1 & F2 & ->). inversion F2 as [|? i ? is2 P F3]; subst. exists is1, i, is2. auto. }
  destruct SPL as (is1 & i & is2 & EI & F1 & PI). assert (L1 : List.length m1 = List.length is1) by (clear - F1; induction F1; cbn; congruence).
  assert (AA : addr24 a) by (eapply A; exact IN).
  assert (HD : exists a0, addr24 a0 /\ forall mk, listing_src mk m is = ([], org_stmt a0) :: src_of mk a0 m is).
  { destruct m as [|[a0 c0] m]; [destruct IN|]. exists a0. split; [eapply A; left; reflexivity|reflexivity]. }
  destruct HD as (a0 & A0 & HD).
  set (bf := fun mk => ([] : list (string * bool), org_stmt a0) :: src_of mk a0 m1 is1 ++ (if a =? end_of a0 m1 then [] else [([], org_stmt a)])).
  assert (SPLIT : forall mk, exists s rest, listing_src mk m is = bf mk ++ (label_list (di_label c), s) :: rest /\ (s = mk c i \/ exists g, s = entry_stmt g)).
  { intros mk. rewrite HD, EM, EI, src_of_snoc by exact L1. cbn [src_of]. unfold bf, entry_src. destruct (di_entry c).
    - eexists _, _. split; [cbn [app]; rewrite <- !app_assoc; reflexivity|]. right. eauto.
    - eexists _, _. split; [cbn [app]; rewrite <- !app_assoc; reflexivity|]. left. reflexivity. }
  assert (LB : forall mk mk', List.length (bf mk) = List.length (bf mk')).
  { intros mk mk'. unfold bf. cbn [List.length]. rewrite !app_length, (src_length mk mk'). reflexivity. }
  set (t := Z.of_nat (List.length (bf (fun _ => SInstr)))).
  assert (DF : defined src None (di_label c) t).
  { destruct (SPLIT (fun _ => SInstr)) as (s & rest & E & _). exists 0%nat, (bf (fun _ => SInstr)), (label_list (di_label c)), s, rest, false. split; [exact E|]. split; [reflexivity|]. split.
    - unfold label_list. destruct (String.eqb_spec (di_label c) ""); [contradiction|reflexivity].
    - right. intros b. apply quiet_closed. intros x IX. apply QS. fold src in E. rewrite E, map_app. apply in_or_app. left. exact IX. }
  assert (DN : denotes src (Z.of_nat k) (di_label c) t).
  { exists (firstn k src), (skipn k src). split; [symmetry; apply firstn_skipn|]. split.
    - rewrite firstn_length_le; [reflexivity|]. rewrite <- LEN. apply Nat.lt_le_incl. apply nth_error_Some. congruence.
    - assert (Q : forall b, ~ open_at (map snd (firstn k src)) b).
      { intros b. apply quiet_closed. intros x IX. apply QS. rewrite <- (firstn_skipn k src), map_app. apply in_or_app. left. exact IX. }
      right. split; [exact DF|]. intros b' t' O. destruct (Q _ O). }
  destruct (values_denote _ _ _ _ _ _ (di_label c) (assembler_ctx (as_mods asm) (as_names asm)) LD RD SS LK) as [V _]. destruct (V _ DN) as (l' & L' & E). unfold context. rewrite E.
  assert (X : ln_value l' = Some a); [|rewrite X; reflexivity].
  destruct (SPLIT with_own) as (s & rest & E1 & SK). unfold t in L'. rewrite Nat2Z.id, (LB _ with_own) in L'.
  pose proof (nth_error_split _ _ L') as (lsb & ls' & E2 & LL). rewrite E2, E1, !map_app in ST. cbn [map snd] in ST.
  assert (ST' : map ln_stmt lsb = map snd (bf with_own) /\ ln_stmt l' = s).
  { apply app_same in ST; [|rewrite !map_length; exact LL]. destruct ST as [S1 S2]. injection S2 as S2 _. auto. }
  destruct ST' as [S1 S2]. apply (line_value mm lsb l' ls' a E2 AH).
  - rewrite S2. destruct SK as [->|(g & ->)]; [apply own_not|apply entry_not; discriminate].
  - rewrite S2. destruct SK as [->|(g & ->)]; [apply own_not|apply entry_not; discriminate].
  - rewrite S1. unfold bf. cbn [map snd]. rewrite map_app. change (org_stmt a0 :: map snd (src_of with_own a0 m1 is1) ++ map snd (if a =? end_of a0 m1 then [] else [([], org_stmt a)])) with (([org_stmt a0] ++ map snd (src_of with_own a0 m1 is1)) ++ map snd (if a =? end_of a0 m1 then [] else [([] : list (string * bool), org_stmt a)])).
    apply org_part; [exact AA|]. apply end_next; [exact F1| |apply (org_next [] a0 A0)]. intros b x IX. apply (A b x). rewrite EM. apply in_or_app. left. exact IX.
Qed.

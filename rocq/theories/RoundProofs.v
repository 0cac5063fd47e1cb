(** Proofs that assembling a listing gives back the bytes that were disassembled. *)
From Verif Require Import Base ModelNumeric ModelAddress ModelMnemonic ModelExpr ModelAMode ModelOpcode ModelState ModelInstr ModelToken ModelStatement ModelParse ModelMap ModelModule ModelAssembler ModelRom ModelDisasm
  SpecArith SpecText SpecState SpecLayout SpecAssemble SpecFlow SpecDisasm SpecListing BaseProofs MapProofs ArithProofs ScopeProofs AssembleProofs ProgramProofs
  DisInvProofs DisRunProofs DisRequestProofs DisClosedProofs CleanProofs PrintProofs ListTextProofs ReassembleProofs ModelTools ToolTextProofs PerProofs RelistProofs InstrProofs.
Open Scope string_scope.
Open Scope list_scope.
Open Scope Z_scope.
Local Opaque decode_opcode check_consistency parse tokenize instr_to_string encode_opcode execute_in execute_branch.

Lemma cleaned_label : forall src rets q d d' a c, conventions_ok rets -> byte_source src -> session src rets q d -> ds_sym d < 2 ^ 31 -> cleanup d = Ok d' -> In (a, c) (ds_map d') ->
  addr24 a /\ collected d' a c /\ (di_label c <> "" -> identifier (di_label c)).
Proof.
  intros src rets q d d' a c CO BS S SY CL IN. destruct (cleanup_open _ _ _ _ _ CO BS S SY CL) as (m3 & E & K & U & NB & P). destruct (session_maps _ _ _ _ CO BS S SY) as (SO & UL & _).
  pose proof (keys_sorted _ _ _ _ K SO) as SO3. destruct (fold_spec (List.length m3) m3 ltac:(lia) SO3) as (F1 & F2 & F3). pose proof (session_good _ _ _ _ CO S) as G.
  assert (X : exists c3, In (a, c3) m3 /\ di_label c = di_label c3).
  { rewrite E in IN. destruct (F2 _ _ IN) as [I3|(c3 & b & x3 & pm & AD & FM & LX & EC & NI)]; [eauto|]. exists c3. split; [destruct AD as (l1 & l2 & ->); apply in_or_app; right; left; reflexivity|rewrite EC; reflexivity]. }
  destruct X as (c3 & I3 & L). split; [|split].
  - destruct (P _ _ I3) as (c0 & I0 & _). assert (KC : collected d a c0) by (apply om_in_find; assumption). apply (good_entry _ _ _ _ G _ _ KC).
  - unfold collected. apply om_in_find; [rewrite E; exact F1|exact IN].
  - rewrite L. intros N. apply (numbered_ident 0 0 (zlen (ds_map d))); [lia|lia|]. eapply NB; eassumption.
Qed.
Definition relists (src : source) (d' : disassembler) (kv : Z * dinstr) (i : instr) : Prop :=
  shows kv i /\ pins kv i /\ 0 < instruction_length (i_mode (di_instr (snd kv))) /\ (within_banks d' -> forall ctx, SpecListing.knows ctx d' -> exists l, instr_bytes (fst kv) ctx (with_mode (i_mode (di_instr (snd kv))) i) = Ok l /\ holds src (fst kv) l).
Lemma only_order : forall order, NoDup order -> (forall i, In i order <-> 0 <= i < 1) -> order = [0].
Proof.
  intros order N I. destruct order as [|x [|y r]].
  - destruct (proj2 (I 0)). lia.
  - f_equal. pose proof (proj1 (I x) (or_introl eq_refl)). lia.
  - pose proof (proj1 (I x) (or_introl eq_refl)). pose proof (proj1 (I y) (or_intror (or_introl eq_refl))). inversion N as [|? ? X _]; subst. destruct X. left. lia.
Qed.
Lemma shared_once : forall A (f : A -> list Z) l, NoDup (flat_map f l) -> forall i j x y z, nth_error l i = Some x -> nth_error l j = Some y -> In z (f x) -> In z (f y) -> i = j.
Proof.
  intros A f l. induction l as [|h l IH]; intros N i j x y z I J Zx Zy; [destruct i; discriminate I|]. cbn in N.
  assert (D : forall v, In v (f h) -> ~ In v (flat_map f l)).
  { clear - N. induction (f h) as [|a t IH]; intros v V; [destruct V|]. cbn in N. inversion N as [|? ? NI N']. subst. destruct V as [<-|V]; [intros X; apply NI; apply in_or_app; auto|exact (IH N' v V)]. }
  assert (N' : NoDup (flat_map f l)) by (clear - N; induction (f h) as [|a t IH]; [exact N|inversion N; auto]).
  destruct i as [|i], j as [|j]; cbn in I, J.
  - reflexivity.
  - injection I as <-. destruct (D z Zx). apply in_flat_map. exists y. split; [exact (nth_error_In _ _ J)|exact Zy].
  - injection J as <-. destruct (D z Zy). apply in_flat_map. exists x. split; [exact (nth_error_In _ _ I)|exact Zx].
  - f_equal. exact (IH N' i j x y z I J Zx Zy).
Qed.
Lemma forall2_at : forall A B (R : A -> B -> Prop) l l', Forall2 R l l' -> forall i x, nth_error l i = Some x -> exists y, nth_error l' i = Some y /\ R x y.
Proof. intros A B R l l' F. induction F; intros i v I; destruct i; try discriminate I; cbn in I; [injection I as <-; eexists; split; [reflexivity|assumption]|apply IHF; exact I]. Qed.
Lemma touches : forall w h n, fst w = h -> 0 <= n < zlen (snd w) -> In (same_bank_plus h n) (touched w).
Proof. intros w h n <- R. unfold touched. apply in_map_iff. exists (Z.to_nat n). unfold zlen in R. rewrite Z2Nat.id by lia. split; [reflexivity|]. apply in_seq. lia. Qed.
(** A fused pair that begins in the last byte of a bank would overlap what follows its CLC or SEC. *)
Lemma accepted_within : forall src rets q d d' ws, conventions_ok rets -> byte_source src -> session src rets q d -> ds_sym d < 2 ^ 31 -> cleanup d = Ok d' -> NoDup (flat_map touched ws) ->
  Forall2 (fun kv w => fst w = fst kv /\ zlen (snd w) = instr_size (di_instr (snd kv)) /\ 0 < instruction_length (i_mode (di_instr (snd kv)))) (ds_map d') ws -> within_banks d'.
Proof.
  intros src rets q d d' ws CO BS S SY CL ND F. destruct (cleanup_open _ _ _ _ _ CO BS S SY CL) as (m3 & E & K & U & NB & P). destruct (session_maps _ _ _ _ CO BS S SY) as (SO & UL & _).
  pose proof (keys_sorted _ _ _ _ K SO) as SO3. destruct (fold_spec (List.length m3) m3 ltac:(lia) SO3) as (F1 & F2 & F3). pose proof (session_good _ _ _ _ CO S) as G.
  assert (FIND : forall a c, In (a, c) (ds_map d) -> collected d a c) by (intros a c IN; apply om_in_find; assumption).
  assert (CN : forall a c, In (a, c) m3 -> i_mnem (di_instr c) = M_clc \/ i_mnem (di_instr c) = M_sec -> addr24 a /\ exists y, In (same_bank_plus a 1, y) m3).
  { intros a c IN M. destruct (P _ _ IN) as (c0 & IN0 & (_ & _ & _ & P4 & _)). apply FIND in IN0. rewrite P4 in M. split; [apply (good_entry _ _ _ _ G _ _ IN0)|].
    destruct (carry_next _ _ _ _ _ _ CO BS S IN0 M) as (x & _ & KX & _). apply om_find_in in KX. exact (key_in _ _ m3 _ _ _ K KX). }
  assert (LAST : forall p c x pm z, adjacent m3 p c z x -> fused_mnemonic (i_mnem (di_instr c)) (i_mnem (di_instr x)) = Some pm -> offset_of z = 0 -> offset_of p = 2 ^ 16 - 1).
  { intros p c x pm z AD FM OZ. apply fused_pair in FM. destruct (CN p c) as (A & y & Y); [destruct AD as (l1 & l2 & ->); apply in_or_app; right; left; reflexivity|destruct FM as [(X & _)|(X & _)]; auto|].
    destruct (Z.eq_dec (offset_of p) (2 ^ 16 - 1)) as [X|X]; [exact X|exfalso]. rewrite (next_byte p A X) in Y. pose proof (sorted_between m3 p c z x SO3 AD y Y) as ->.
    unfold offset_of in *. change (2 ^ 16) with 65536 in *. Z.div_mod_to_equations. lia. }
  assert (NOT : forall n pc c x b pm, (Z.to_nat pc < n)%nat -> adjacent m3 pc c b x -> fused_mnemonic (i_mnem (di_instr c)) (i_mnem (di_instr x)) = Some pm -> In (pc, fuse c x pm) (fold_pseudo m3) -> offset_of pc <> 2 ^ 16 - 1).
  { induction n as [|n IH]; intros pc c x b pm LT AD FM IN OF; [lia|]. pose proof (proj1 (fused_pair _ _ _) FM) as FP.
    destruct (CN pc c) as (A & y & Y); [destruct AD as (l1 & l2 & ->); apply in_or_app; right; left; reflexivity|destruct FP as [(X & _)|(X & _)]; auto|].
    assert (ZA : same_bank_plus pc 1 = pc - 65535 /\ offset_of (same_bank_plus pc 1) = 0).
    { unfold same_bank_plus, offset_of, bank_of, addr24 in *. change (2 ^ 16) with 65536 in *. split; Z.div_mod_to_equations; lia. }
    destruct (F3 _ _ Y) as [(c' & IN' & _)|(p & c0 & pm' & AD' & FM' & _ & IN')].
    - rewrite <- E in IN, IN'. destruct (In_nth_error _ _ IN) as (i & I). destruct (In_nth_error _ _ IN') as (j & J).
      destruct (forall2_at _ _ _ _ _ F _ _ I) as (w & W & Wa & Ws & Wl). destruct (forall2_at _ _ _ _ _ F _ _ J) as (v & V & Va & Vs & Vl). cbn [fst snd] in *.
      assert (SZ : 1 < instr_size (di_instr (fuse c x pm))).
      { unfold instr_size. assert (X : i_mnem (di_instr (fuse c x pm)) = pm) by reflexivity. rewrite X. destruct FP as [(_ & _ & ->)|(_ & _ & ->)]; lia. }
      assert (SV : 0 < instr_size (di_instr c')) by (unfold instr_size; destruct (i_mnem (di_instr c')); lia).
      assert (i = j) as <-.
      { apply (shared_once _ touched ws ND i j w v (same_bank_plus pc 1) W V); [apply touches; [exact Wa|lia]|].
        replace (same_bank_plus pc 1) with (same_bank_plus (same_bank_plus pc 1) 0); [apply touches; [exact Va|lia]|].
        destruct ZA as [_ ZO]. revert ZO. generalize (same_bank_plus pc 1) as z. intros z ZO. unfold same_bank_plus, offset_of, bank_of in *. change (2 ^ 16) with 65536 in *. Z.div_mod_to_equations; lia. }
      rewrite I in J. injection J as J _. lia.
    - assert (PL : 0 <= p < same_bank_plus pc 1).
      { split; [|destruct AD' as (l1 & l2 & EQ); clear - SO3 EQ; subst m3; induction l1 as [|h l1 IH]; [destruct SO3 as [S0 _]; apply (S0 _ y); left; reflexivity|apply IH; destruct h; apply SO3]].
        pose proof (proj1 (fused_pair _ _ _) FM') as FP'. destruct (CN p c0) as (A' & _); [destruct AD' as (l1 & l2 & ->); apply in_or_app; right; left; reflexivity|destruct FP' as [(X & _)|(X & _)]; auto|]. apply A'. }
      apply (IH p c0 y _ pm' ltac:(lia) AD' FM' IN'). apply (LAST _ _ _ _ _ AD' FM'). apply ZA. }
  intros pc c KC M. unfold collected in KC. rewrite E in KC. apply om_find_in in KC. destruct (F2 _ _ KC) as [IN|(c3 & b & x3 & pm & AD & FM & LX & EC & NI)].
  - exfalso. destruct (P _ _ IN) as (c0 & IN0 & (_ & _ & _ & P4 & _)). apply FIND in IN0. destruct (good_entry _ _ _ _ G _ _ IN0) as [A EN].
    destruct (entry_open _ _ _ _ _ BS A EN) as (op & rest & j & v & RD & B & R & DE & FA & RE & LO & SC & _). destruct (decode_mode_of op rest _ j R DE) as (MJ & _). destruct SC as (MM & _).
    destruct (InstrProofs.decode_not_pseudo op R) as [N1 N2]. rewrite <- MJ, <- MM, <- P4 in N1, N2. destruct M; contradiction.
  - subst c. exact (NOT (Datatypes.S (Z.to_nat pc)) pc c3 x3 b pm ltac:(lia) AD FM KC).
Qed.
Lemma reassembles_after : forall src rets q d d' fuel sk ws asm out, Forall comment out -> conventions_ok rets -> readable rets -> byte_source src -> session src rets q d -> ds_sym d < 2 ^ 31 -> cleanup d = Ok d' ->
  assemble fuel sk [out ++ listing (ds_map d')] = (ws, Ok asm) ->
  Forall2 (fun kv w => fst w = fst kv /\ zlen (snd w) = instr_size (di_instr (snd kv)) /\ holds src (fst w) (snd w)) (ds_map d') ws.
Proof.
  intros src rets q d d' fuel sk ws asm out OC CO RDB BS S SY CL H.
  destruct (program_output _ _ _ _ _ H) as (HF & order & wss & ND & OI & FW & ->).
  inversion HF as [|? mm ? r (sc & m0 & RD & LD & SS & RS) HR EA EM]; subst. inversion HR; subst. clear HR HF. pose proof (eq_sym EM) as EM'. clear EM. rename EM' into EM.
  assert (O : order = [0]) by (apply only_order; [exact ND|]; intros i; rewrite OI, EM; reflexivity). subst order.
  inversion FW as [|? rs ? r (mm' & MM & WM) FR]; subst. inversion FR; subst. cbn [concat]. rewrite app_nil_r. clear FR FW. rewrite EM in MM. cbn in MM. injection MM as <-.
  assert (NP : forall a c, collected d' a c -> i_mnem (di_instr c) <> M_per).
  { intros a c KC PM. apply om_find_in in KC. destruct (cleaned_label _ _ _ _ _ _ _ CO BS S SY CL KC) as (_ & _ & ID). destruct (per_shown _ _ _ _ _ _ _ CO BS S SY CL KC PM) as (v & R & PL).
    pose proof (proj1 (comments_read out _ _ OC) RD) as RD1. eapply (per_unread (ds_map d') a c v sc); eassumption. }
  assert (RL : exists is, Forall2 (relists src d') (ds_map d') is).
  { assert (G : forall m, (forall a c, In (a, c) m -> In (a, c) (ds_map d')) -> exists is, Forall2 (relists src d') m is).
    { induction m as [|[a c] m IH]; intros SUB; [exists []; constructor|]. destruct IH as (is & F); [intros b x IN; apply SUB; right; exact IN|].
      assert (IN : In (a, c) (ds_map d')) by (apply SUB; left; reflexivity). destruct (cleaned_label _ _ _ _ _ _ _ CO BS S SY CL IN) as (A & KC & ID).
      destruct (listing_line _ _ _ _ _ _ _ CO RDB BS S SY CL KC (NP _ _ KC)) as (ts & i & T & PA & IM & SZ & PIN & BY).
      exists (i :: is). constructor; [|exact F]. split; [|split; [split; [exact IM|split; [unfold instr_size; cbn [snd]; destruct (i_mnem (di_instr c)); lia|exact PIN]]|split; [exact SZ|exact BY]]].
      split; [exact A|]. split; [exact ID|]. split; [|exists ts; auto]. cbn [snd]. intros DE. destruct (bit_known (fl_c (es_flags (di_cur c)))) eqn:BK; [|reflexivity].
      exfalso. pose proof (proj1 (comments_read out _ _ OC) RD) as RD1. eapply (listing_unread (ds_map d') a c sc); eassumption. }
    apply G. auto. }
  destruct RL as (is & F). assert (FS : Forall2 shows (ds_map d') is) by (clear - F; induction F as [|? ? ? ? (X & _)]; constructor; auto).
  assert (FP : Forall2 pins (ds_map d') is) by (clear - F; induction F as [|? ? ? ? (_ & X & _)]; constructor; auto).
  pose proof (proj2 (comments_read out _ _ OC) (listing_read _ _ FS)) as RD0. pose proof (reads_det _ _ _ RD RD0) as ->. 
  assert (AA : forall a c, In (a, c) (ds_map d') -> addr24 a) by (intros a c IN; apply (cleaned_label _ _ _ _ _ _ _ CO BS S SY CL IN)).
  assert (AH : addresses_hold mm) by (apply (program_located _ _ _ _ _ H); rewrite EM; left; reflexivity).
  assert (RS2 : Forall2 resolved_ok (map snd (listing_src (fun _ => SInstr) (ds_map d') is)) (md_lines mm)).
  { assert (CK : forall k l i, nth_error (md_lines mm) k = Some l -> nth_error (map snd (listing_src (fun _ => SInstr) (ds_map d') is)) k = Some (SInstr i) -> exists u, check_consistency i (es_flags (ln_in l)) = Ok u).
    { intros k l i L ST. eapply (program_checked _ _ _ _ _ 0%nat _ _ _ k l i H); [reflexivity|rewrite EM; reflexivity|exact RD0|exact L|exact ST]. }
    clear - RS CK. induction RS as [|s l ss ls R RS IH]; [constructor|]. constructor.
    - split; [exact R|]. intros i ->. apply (CK 0%nat l i); reflexivity.
    - apply IH. intros k l' i L ST. apply (CK (Datatypes.S k) l' i); assumption. }
  assert (ST : map ln_stmt (md_lines mm) = map snd (listing_src with_own (ds_map d') is)).
  { clear - RS2 FP. unfold listing_src in *. destruct (ds_map d') as [|[a c] m]; [inversion RS2; reflexivity|]. inversion RS2 as [|? ? ? ls [R _] RS3]; subst. cbn in R. cbn [map snd]. rewrite R. f_equal. apply resolved_stmts; assumption. }
  assert (KN : forall k l, nth_error (md_lines mm) k = Some l -> SpecListing.knows (context asm mm l) d').
  { intros k l L a c KC NE. unfold collected in KC. apply om_find_in in KC. eapply listing_names; eassumption. }
  assert (W : Forall2 (fun kv w => exists i, relists src d' kv i /\ written asm mm kv i w) (ds_map d') rs).
  { destruct (ds_map d') as [|[a0 c0] m] eqn:DM.
    - unfold listing_src in ST. destruct (md_lines mm) eqn:ML; [|discriminate ST]. unfold writes_module in WM. rewrite ML in WM. inversion WM. constructor.
    - pose proof ST as ST'. unfold listing_src in ST'. destruct (md_lines mm) as [|l0 ls] eqn:ML; [discriminate ST'|]. cbn [map snd] in ST'. injection ST' as S0 S1.
      unfold writes_module in WM. rewrite ML in WM. cbn [filter] in WM. unfold has_bytes at 1 in WM. rewrite S0 in WM. cbn [stmt_size] in WM.
      apply (writes_match (relists src d') asm mm) with (is := is) (pc := a0) (lsb := [l0]) (ls := ls); [|exact AH|exact F|exact ML| |exact S1|exact WM].
      + intros kv i (X & Y & _). split; [exact Y|apply X].
      + cbn [map]. rewrite S0. apply (org_next [] a0). apply (AA a0 c0). left. reflexivity. }
  assert (WB : within_banks d').
  { apply (accepted_within _ _ _ _ _ rs CO BS S SY CL).
    - destruct (program_spec _ _ _ _ _ H) as (? & ? & ? & ? & _ & _ & _ & _ & _ & _ & _ & N & _). cbn [concat] in N. rewrite app_nil_r in N. exact N.
    - clear - W. induction W as [|kv w m ws (i & (_ & _ & LN & _) & (E1 & E2 & _)) W IH]; constructor; auto. }
  clear - W KN WB. induction W as [|kv w m ws (i & (_ & _ & _ & BY) & (E1 & E2 & k & l & L & SB)) W IH]; [constructor|]. constructor; [|exact IH].
  split; [exact E1|]. split; [exact E2|]. destruct (BY WB _ (KN _ _ L)) as (bs & IB & HO). rewrite E1 in SB. unfold with_own in SB. cbn [stmt_bytes] in SB. rewrite IB in SB. cbn in SB. injection SB as <-.
  rewrite E1. exact HO.
Qed.

Lemma reassembles : forall src rets q d d' fuel sk ws asm, conventions_ok rets -> readable rets -> byte_source src -> session src rets q d -> ds_sym d < 2 ^ 31 -> cleanup d = Ok d' ->
  assemble fuel sk [listing (ds_map d')] = (ws, Ok asm) ->
  Forall2 (fun kv w => fst w = fst kv /\ zlen (snd w) = instr_size (di_instr (snd kv)) /\ holds src (fst w) (snd w)) (ds_map d') ws.
Proof. intros. eapply (reassembles_after src rets q d d' fuel sk ws asm []); eauto. Qed.
Lemma per_unreadable : forall src rets q d d' fuel sk ws asm a c, conventions_ok rets -> byte_source src -> session src rets q d -> ds_sym d < 2 ^ 31 -> cleanup d = Ok d' ->
  collected d' a c -> i_mnem (di_instr c) = M_per -> assemble fuel sk [listing (ds_map d')] <> (ws, Ok asm).
Proof.
  intros src rets q d d' fuel sk ws asm a c CO BS S SY CL K PM H. destruct (program_output _ _ _ _ _ H) as (HF & _). inversion HF as [|? mm ? r (sc & m0 & RD & _) HR EA EM]; subst.
  apply om_find_in in K. destruct (cleaned_label _ _ _ _ _ _ _ CO BS S SY CL K) as (_ & _ & ID). destruct (per_shown _ _ _ _ _ _ _ CO BS S SY CL K PM) as (v & R & PL). eapply (per_unread (ds_map d') a c v sc); eassumption.
Qed.
Lemma unreadable : forall src rets q d d' fuel sk ws asm a c, conventions_ok rets -> byte_source src -> session src rets q d -> ds_sym d < 2 ^ 31 -> cleanup d = Ok d' ->
  collected d' a c -> di_entry c = true -> bit_known (fl_c (es_flags (di_cur c))) = true -> assemble fuel sk [listing (ds_map d')] <> (ws, Ok asm).
Proof.
  intros src rets q d d' fuel sk ws asm a c CO BS S SY CL K E C H. destruct (program_output _ _ _ _ _ H) as (HF & _). inversion HF as [|? mm ? r (sc & m0 & RD & _) HR EA EM]; subst.
  apply om_find_in in K. destruct (cleaned_label _ _ _ _ _ _ _ CO BS S SY CL K) as (_ & _ & ID). eapply listing_unread; eassumption.
Qed.

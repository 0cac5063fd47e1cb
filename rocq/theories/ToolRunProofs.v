(** Proofs about what util/quick_disassemble.cc collects. *)
From Verif Require Import Base ModelNumeric ModelAddress ModelExpr ModelMnemonic ModelAMode ModelOpcode ModelState ModelInstr ModelMap ModelRom ModelDisasm
  Spec65816 SpecArith SpecInstr SpecState SpecFlow SpecDisasm SpecTools BaseProofs MapProofs ArithProofs StateProofs ExecProofs InstrProofs FlowArriveProofs FlowKindProofs
  NameProofs DisStateProofs DisStepProofs DisInvProofs DisRunProofs DisRequestProofs DisClosedProofs ModelTools.
Open Scope list_scope.
Open Scope Z_scope.
Local Opaque check_consistency execute_in execute_branch decode_opcode op_form in_names op_name.

(** ** The addresses of jumps and calls. *)
Lemma direct_addr : forall pc op rest t, addr24 pc -> bytes_ok (op :: rest) -> direct_target pc op rest = Some t -> addr24 t.
Proof.
  intros pc op rest t A B H. inversion B as [|? ? _ Br]; subst. unfold direct_target in H. unfold addr24, bank_of in *.
  destruct (op_form op); try discriminate H; destruct rest as [|lo [|hi rest]]; try discriminate H.
  - destruct (in_names op _); [|discriminate H]. injection H as <-. inversion Br as [|? ? L Br1]; subst. inversion Br1 as [|? ? Hi _]; subst.
    assert (0 <= pc / 2 ^ 16 < 2 ^ 8) by (split; [apply Z.div_pos; lia|apply Z.div_lt_upper_bound; lia]). lia.
  - destruct rest as [|b rest]; [discriminate H|]. destruct (in_names op _); [|discriminate H]. injection H as <-.
    inversion Br as [|? ? L Br1]; subst. inversion Br1 as [|? ? Hi Br2]; subst. inversion Br2; subst. lia.
Qed.
Lemma decode_far_addr : forall src bytes f j pc t, byte_source src -> src pc 4 = Ok bytes -> decode bytes f = Ok j -> addr24 pc -> far_branch_target j pc = Ok (Some t) -> addr24 t.
Proof.
  intros src bytes f j pc t BS R D A F. pose proof (BS _ _ _ R) as B. destruct bytes as [|op rest]; [discriminate D|]. rewrite (decode_far op rest f j pc B D A) in F. injection F as F.
  exact (direct_addr _ _ _ _ A B F).
Qed.
Definition far_addrs (w : dwork) : Prop := forall t, om_find t (dw_far w) <> None -> addr24 t.
Lemma add_far_addrs : forall t s w, sorted_keys (dw_far w) -> addr24 t -> far_addrs w -> far_addrs (dw_add_far t s w).
Proof. intros t s w S A F u. cbn [dw_add_far dw_far]. rewrite om_find_merge by exact S. destruct (Z.eqb_spec t u) as [->|N]; [auto|apply F]. Qed.
Lemma new_far : forall src rets old pc cur w w1 w', byte_source src -> addr24 pc -> sorted_keys (dw_far w) -> far_addrs w -> visit_new src rets old pc cur w = (w1, Ok w') -> far_addrs w'.
Proof.
  intros src rets old pc cur w w1 w' BS A S F H. unfold visit_new in H.
  destruct (src pc 4) as [bytes|e|u|] eqn:R; cbn [bind] in H; [|discriminate H..].
  destruct (decode bytes (es_flags cur)) as [j|e|u|] eqn:D; cbn [bind] in H; [|discriminate H..].
  destruct (execute j cur) as [next|e|u|]; cbn [bind] in H; [|discriminate H..]. cbv zeta in H.
  destruct (far_branch_target j pc) as [far|e|u|] eqn:FT; [|discriminate H..].
  assert (FIN : forall i2 nx w2 w3 w4, far_addrs w2 ->
     (let w := dw_set_new (om_set pc (DInstr ""%string i2 false cur nx) (dw_new w2)) w2 in
      let w := if is_exit_instruction i2 then w else dw_push (add_wrapped pc (instruction_length (i_mode j))) nx w in (w, Ok w)) = (w3, Ok w4) -> far_addrs w4).
  { clear. intros i2 nx w2 w3 w4 F E. cbv zeta in E. injection E as _ <-. destruct (is_exit_instruction i2); exact F. }
  destruct (match far with Some t => _ | None => _ end) as [[i2 nx] w2] eqn:E.
  assert (F2 : far_addrs w2).
  { destruct far as [t|]; injection E as _ _ <-; [|exact F]. apply add_far_addrs; [exact S| |exact F]. eapply decode_far_addr; eassumption. }
  clear E F. destruct (is_local_branch i2).
  - destruct (branch_offset i2) as [v|e|u|]; [|discriminate H..]. destruct (get_label old w2 _) as [lab w5] eqn:GL. destruct (get_label_rest _ _ _ _ _ GL) as (_ & _ & EF).
    destruct (execute_branch _ cur) as [bs|e|u|]; [|discriminate H..]. eapply FIN; [|exact H]. unfold far_addrs. cbn [dw_push dw_far]. rewrite EF. exact F2.
  - eapply FIN; [|exact H]. exact F2.
Qed.
Lemma again_far : forall src rets lab pc cur d w w', byte_source src -> addr24 pc -> sorted_keys (dw_far w) -> entry_ok src rets lab pc d -> far_addrs w -> visit_again src pc cur d w = Ok w' -> far_addrs w'.
Proof.
  intros src rets lab pc cur d w w' BS A S EN F H. unfold visit_again in H. cbv zeta in H. destruct (es_eqb _ _); [injection H as <-; exact F|].
  bok H as bytes RB. bok H as j0 D0. bok H as nx EX. bok H as far FT.
  assert (FW : forall (b : bool) w0 x n, far_addrs w0 -> far_addrs (if b then w0 else dw_push x n w0)) by (intros [] w0 x n Y; exact Y).
  assert (SW : forall (b : bool) w0 x n, dw_far (if b then w0 else dw_push x n w0) = dw_far w0) by (intros [] w0 x n; reflexivity).
  match type of H with context [match far with Some t => dw_add_far t nx ?W | None => ?W end] => set (w1 := W) in H end.
  assert (F1 : far_addrs w1) by (apply FW; exact F). assert (S1 : sorted_keys (dw_far w1)) by (unfold w1; rewrite SW; exact S).
  assert (F2 : far_addrs (match far with Some t => dw_add_far t nx w1 | None => w1 end)).
  { destruct far as [t|]; [|exact F1]. apply add_far_addrs; [exact S1| |exact F1].
    destruct (entry_open _ _ _ _ _ BS A EN) as (op & rest & j & v & RD & B & R & DE & FA & _ & _ & SC & _).
    rewrite (same_far _ _ _ _ SC) in FT. eapply decode_far_addr; eassumption. }
  destruct (is_local_branch (di_instr d)); [|injection H as <-; exact F2]. bok H as bs EB. bok H as v EV. injection H as <-. exact F2.
Qed.
Lemma loop_far : forall fuel K R src rets old w w1 w', byte_source src -> rets_ok rets -> inv K R src rets old w -> far_addrs w -> disasm_loop fuel src rets old w = (w1, Ok w') -> far_addrs w'.
Proof.
  induction fuel as [|fuel IH]; intros K R src rets old w w1 w' BS RO I F H; cbn [disasm_loop] in H; destruct (dw_stack w) as [|p st] eqn:ST.
  - injection H as <- <-. exact F.
  - discriminate H.
  - injection H as <- <-. exact F.
  - destruct (disasm_step src rets old w) as [w2 r] eqn:E. destruct r as [w3| | |]; [|discriminate H..].
    eapply (IH K R); [exact BS|exact RO|eapply inv_step; [exact RO|exact I|rewrite E; reflexivity]| |exact H].
    unfold disasm_step in E. rewrite ST in E. destruct p as [pc cur]. cbn [dw_set_stack dw_new] in E. destruct (get_instruction old (dw_new w) pc) as [found new] eqn:G.
    destruct (get_spec _ _ _ _ _ (inv_new _ _ _ _ _ _ I) G) as (FV & SN & VE & _ & _). symmetry in FV.
    assert (A : addr24 pc) by (apply (inv_addr _ _ _ _ _ _ I pc cur); rewrite ST; cbn; rewrite Z.eqb_refl; reflexivity).
    destruct found as [d|].
    + injection E as _ E. destruct (inv_entry _ _ _ _ _ _ I _ _ FV) as [_ EN]. eapply (again_far src rets _ pc cur d (dw_set_new new (dw_set_stack st w)) w3); [exact BS|exact A|exact (inv_fs _ _ _ _ _ _ I)|exact EN|exact F|exact E].
    + eapply (new_far src rets old pc cur (dw_set_new new (dw_set_stack st w)) w2 w3); [exact BS|exact A|exact (inv_fs _ _ _ _ _ _ I)|exact F|exact E].
Qed.
Definition far_ok (m : omap flags) : Prop := sorted_keys m /\ forall t g, om_find t m = Some g -> addr24 t /\ consistent g.
Lemma request_far : forall src rets q d fuel a f d' far, conventions_ok rets -> byte_source src -> session src rets q d -> addr24 a -> consistent f -> disassemble fuel src a f d = (d', Ok far) -> far_ok far.
Proof.
  intros src rets q d fuel a f d' far CO BS S A C H. pose proof (session_good _ _ _ _ CO S) as G. destruct (request _ _ _ _ _ _ _ _ _ CO G A C H) as (_ & _ & _ & SF & FC).
  split; [exact SF|]. intros t g FG. split; [|exact (FC _ _ FG)].
  unfold disassemble in H. rewrite (good_rets _ _ _ _ G) in H. destruct (get_label (ds_map d) _ a) as [lab w0] eqn:GL. destruct (inv_start _ _ _ _ _ _ _ _ G A C GL) as (I0 & _).
  destruct (disasm_loop fuel src rets (ds_map d) w0) as [w1 r1] eqn:LP. destruct r1 as [w|e|u|]; [|discriminate H..].
  cbv zeta in H. destruct (apply_labels _ _) as [m|e|u|]; [|discriminate H..]. injection H as _ <-.
  apply (loop_far _ _ _ _ _ _ _ _ _ BS CO I0) in LP; [apply LP; congruence|]. intros u U. destruct (get_label_rest _ _ _ _ _ GL) as (_ & _ & EF). rewrite EF in U. destruct U. reflexivity.
Qed.

(** ** The passes. *)
Definition told (m : omap flags) (t : Z) (f : flags) : Prop := exists g, om_find t m = Some g /\ fbelow f g.
Lemma combine_far : forall n m, far_ok m -> seeds_ok n -> far_ok (combine_states m n) /\
  (forall t f, consistent f -> told m t f -> told (combine_states m n) t f) /\ (forall t g, In (t, g) n -> told (combine_states m n) t g).
Proof.
  induction n as [|[t0 g0] n IH]; intros m FM SN; [split; [exact FM|split; [auto|intros t g []]]|]. destruct FM as [SM FM]. destruct (SN t0 g0 (or_introl eq_refl)) as [A0 C0].
  assert (CM : forall t g, om_find t m = Some g -> consistent g) by (intros t g F; apply (FM _ _ F)).
  assert (FM' : far_ok (om_merge flags_merge t0 g0 m)).
  { split; [apply om_merge_sorted; exact SM|]. intros t g F. split; [|exact (far_con m t0 g0 SM C0 CM _ _ F)]. rewrite om_find_merge in F by exact SM.
    destruct (Z.eqb_spec t0 t) as [<-|N]; [exact A0|apply (FM _ _ F)]. }
  destruct (IH _ FM') as (F1 & F2 & F3); [intros a f IN; apply SN; right; exact IN|]. change (combine_states m ((t0, g0) :: n)) with (combine_states (om_merge flags_merge t0 g0 m) n). split; [exact F1|]. split.
  - intros t f CF (g & FG & B). apply F2; [exact CF|]. unfold told. rewrite om_find_merge by exact SM. destruct (Z.eqb_spec t0 t) as [<-|N]; [|eauto]. rewrite FG.
    eexists. split; [reflexivity|]. eapply fbelow_trans; [exact CF|exact (CM _ _ FG)|apply mk_flags_consistent|exact B|apply fbelow_l; [exact (CM _ _ FG)|exact C0]].
  - intros t g [E|IN]; [|apply F3; exact IN]. injection E as <- <-. apply F2; [exact C0|]. apply far_new; [exact SM|exact C0|exact CM].
Qed.
Lemma far_seeds : forall m, far_ok m -> seeds_ok m.
Proof. intros m [S F] a f IN. apply F. apply om_in_find; assumption. Qed.

(** Where a jump or call of the disassembly leads: it has been requested, or it is to be. *)
Definition pending (q : list (Z * flags)) (d : disassembler) (seeds new : omap flags) : Prop :=
  forall pc c t, collected d pc c -> far_branch_target (di_instr c) pc = Ok (Some t) ->
  (exists g, (In (t, g) q \/ In (t, g) seeds) /\ fbelow (left_flags (di_cur c)) g) \/ told new t (left_flags (di_cur c)).
Lemma pending_step : forall src q d fuel a f d' far seeds new, byte_source src -> session src [] q d -> addr24 a -> consistent f -> far_ok new ->
  disassemble fuel src a f d = (d', Ok far) -> pending q d ((a, f) :: seeds) new -> pending ((a, f) :: q) d' seeds (combine_states new far).
Proof.
  intros src q d fuel a f d' far seeds new BS S A C FN H P pc c t K FT.
  assert (CO : conventions_ok []) by (intros u r U; discriminate U). pose proof (session_good _ _ _ _ CO S) as G.
  destruct (request _ _ _ _ _ _ _ _ _ CO G A C H) as (G' & _ & TOLD & _). pose proof (request_far _ _ _ _ _ _ _ _ _ CO BS S A C H) as FF.
  destruct (combine_far _ _ FN (far_seeds _ FF)) as (_ & M1 & M2).
  destruct (good_entry _ _ _ _ G' _ _ K) as [AP EN]. destruct (entry_open _ _ _ _ _ BS AP EN) as (op & rest & j & v & RD & B & R & DE & FA & RE & LO & SC & C1 & C2 & EX).
  assert (CL : consistent (left_flags (di_cur c))) by (apply con_set_c; apply C1).
  assert (NY : forall g, i_ret (di_instr c) <> RC_yields g).
  { rewrite RE. unfold convention. intros g. destruct (direct_target pc op rest); [|discriminate]. destruct (in_names op _); discriminate. }
  assert (FR : fresh (ds_map d) pc c \/ exists c0, collected d pc c0 /\ di_cur c0 = di_cur c).
  { unfold fresh, collected. destruct (om_find pc (ds_map d)) as [c0|]; [|left; intros d0 X; discriminate X]. destruct (es_eqb (di_cur c0) (di_cur c)) eqn:E.
    - apply es_eqb_eq in E. right. eauto.
    - left. intros d0 X. injection X as <-. intros X. apply es_eqb_eq in X. congruence. }
  destruct FR as [FR|(c0 & K0 & E0)].
  - right. destruct (TOLD _ _ K FR t FT NY) as (g & FG & BG). apply om_find_in in FG. destruct (M2 _ _ FG) as (h & FH & BH). exists h. split; [exact FH|].
    apply (far_seeds _ FF) in FG. destruct (combine_far _ _ FN (far_seeds _ FF)) as ((_ & FC) & _). eapply fbelow_trans; [exact CL|apply FG|apply (FC _ _ FH)|exact BG|exact BH].
  - destruct (good_entry _ _ _ _ G _ _ K0) as [_ EN0]. destruct (entry_open _ _ _ _ _ BS AP EN0) as (op0 & rest0 & j0 & v0 & RD0 & _ & _ & _ & FA0 & _ & _ & SC0 & _).
    assert (FT0 : far_branch_target (di_instr c0) pc = Ok (Some t)).
    { rewrite (same_far _ _ _ _ SC0), FA0. rewrite (same_far _ _ _ _ SC), FA in FT. rewrite RD in RD0. injection RD0 as <- <-. exact FT. }
    destruct (P _ _ _ K0 FT0) as [(g & I & BG)|T]; rewrite E0 in *.
    + left. exists g. split; [|exact BG]. cbn in I |- *. tauto.
    + right. apply M1; assumption.
Qed.

Definition noted (s : string) : Prop := exists t, s = String ";" t.
Lemma run_seeds_spec : forall fuel msg src seeds q d new out d' new' out', byte_source src -> seeds_ok seeds -> session src [] q d -> far_ok new -> run_seeds fuel msg src seeds d new out = Ok (d', new', out') ->
  exists q' os, session src [] q' d' /\ far_ok new' /\ out' = out ++ os /\ Forall noted os /\ (forall x, In x q -> In x q') /\
    (os = [] -> (forall x, In x seeds -> In x q') /\ (pending q d seeds new -> pending q' d' [] new')).
Proof.
  intros fuel msg src. assert (CO : conventions_ok []) by (intros u r U; discriminate U).
  induction seeds as [|[a f] seeds IH]; intros q d new out d' new' out' BS SO S FN H; cbn [run_seeds] in H.
  - injection H as <- <- <-. exists q, []. rewrite app_nil_r. do 5 (split; [auto|]). intros _. split; [intros x []|auto].
  - destruct (SO a f (or_introl eq_refl)) as [A C]. assert (SO' : seeds_ok seeds) by (intros b g IN; apply SO; right; exact IN).
    destruct (disassemble fuel src a f d) as [d1 r] eqn:D. pose proof (se_request _ _ _ _ _ _ _ _ _ S A C D) as S1. destruct r as [far|e|u|]; [| |discriminate H..].
    + pose proof (request_far _ _ _ _ _ _ _ _ _ CO BS S A C D) as FF. destruct (combine_far _ _ FN (far_seeds _ FF)) as (FN' & _).
      destruct (IH _ _ _ _ _ _ _ BS SO' S1 FN' H) as (q' & os & S' & F' & E & N & Q & X). exists q', os. split; [exact S'|]. split; [exact F'|]. split; [exact E|]. split; [exact N|].
      split; [intros x IN; apply Q; right; exact IN|]. intros O. destruct (X O) as [X1 X2]. split; [intros x [<-|IN]; [apply Q; left; reflexivity|apply X1; exact IN]|].
      intros P. apply X2. eapply pending_step; eassumption.
    + destruct (IH _ _ _ _ _ _ _ BS SO' S1 FN H) as (q' & os & S' & F' & E & N & Q & X). rewrite <- app_assoc in E. eexists q', (_ ++ os). split; [exact S'|]. split; [exact F'|]. split; [exact E|].
      split; [constructor; [eexists; reflexivity|constructor; [eexists; reflexivity|exact N]]|]. split; [exact Q|]. intros O. discriminate O.
Qed.
Lemma run_passes_spec : forall n fuel msg src seeds q d out d' seeds' out', byte_source src -> far_ok seeds \/ n <> O /\ seeds_ok seeds -> session src [] q d -> run_passes n fuel msg src seeds d out = Ok (d', seeds', out') ->
  exists q' os, session src [] q' d' /\ out' = out ++ os /\ Forall noted os /\ (forall x, In x q -> In x q') /\
    (os = [] -> (n <> O -> forall x, In x seeds -> In x q') /\ (pending q d seeds [] -> pending q' d' seeds' [])).
Proof.
  induction n as [|n IH]; intros fuel msg src seeds q d out d' seeds' out' BS SO S H; cbn [run_passes] in H.
  - injection H as <- <- <-. exists q, []. rewrite app_nil_r. do 4 (split; [auto|]). intros _. split; [congruence|auto].
  - bok H as p E. destruct p as [[d1 seeds1] out1].
    assert (SO' : seeds_ok seeds) by (destruct SO as [SO|[_ SO]]; [apply far_seeds; exact SO|exact SO]).
    assert (F0 : far_ok []) by (split; [exact Logic.I|intros t g X; discriminate X]).
    destruct (run_seeds_spec _ _ _ _ _ _ _ _ _ _ _ BS SO' S F0 E) as (q1 & os1 & S1 & F1 & E1 & N1 & Q1 & X1).
    destruct (IH _ _ _ _ _ _ _ _ _ _ BS (or_introl F1) S1 H) as (q2 & os2 & S2 & E2 & N2 & Q2 & X2). exists q2, (os1 ++ os2). split; [exact S2|]. split; [rewrite E2, E1, app_assoc; reflexivity|].
    split; [apply Forall_app; auto|]. split; [auto|]. intros O. apply app_eq_nil in O. destruct O as [O1 O2]. destruct (X1 O1) as [Y1 P1]. destruct (X2 O2) as [_ P2].
    split; [intros _ x IN; apply Q2, Y1; exact IN|]. intros P. apply P2. specialize (P1 P). intros pc c t K FT. left. destruct (P1 pc c t K FT) as [(g & [I|[]] & BG)|(g & FG & BG)].
    + exists g. auto.
    + exists g. split; [right; apply om_find_in; exact FG|exact BG].
Qed.

(** ** Everything that the program executes is collected. *)
Lemma arrives_flags : forall src rets a f g o pc k, flags_describe (c_modes o) g (c_modes o) -> rom_arrives src rets a f o pc k -> rom_arrives src rets a g o pc k.
Proof. intros src rets a f g o pc k D H. induction H; [constructor; assumption|eapply ro_next; eassumption|eapply ro_branch; eassumption]. Qed.
Lemma describes_own : forall o f k, flags_describe o f k -> flags_describe k f k.
Proof.
  intros o f k (E & M & X & C). assert (U : forall a b v, bit_describes a b v -> bit_describes v b v) by (intros a [] v; cbn; auto).
  split; [eapply U; exact E|]. split; [eapply U; exact M|]. split; [eapply U; exact X|eapply U; exact C].
Qed.
Lemma tool_covers : forall src seeds n fuel msg d a o f pc k, byte_source src -> seeds_ok seeds -> n <> O -> run_passes n fuel msg src seeds new_disassembler [] = Ok (d, [], []) -> followed d ->
  program_enters src seeds a o -> rom_arrives src [] a f o pc k ->
  exists c op rest, collected d pc c /\ src pc 4 = Ok (op :: rest) /\ describes_modes o (di_cur c) k /\ mnem_to_string (i_mnem (di_instr c)) = op_name op /\
    instruction_length (i_mode (di_instr c)) = cpu_length op (p_m (c_modes k)) (p_x (c_modes k)).
Proof.
  intros src seeds n fuel msg d a o f pc k BS SO NZ H FO PE RA. assert (CO : conventions_ok []) by (intros u r U; discriminate U).
  destruct (run_passes_spec n fuel msg src seeds [] new_disassembler [] d [] [] BS (or_intror (conj NZ SO))) as (q & os & S & E & _ & _ & X); [exact (se_new src [])|exact H|].
  cbn in E. destruct (X (eq_sym E)) as [Q P]. specialize (Q NZ). specialize (P ltac:(intros pc0 c t K; discriminate K)). clear X E.
  assert (EN : exists g, In (a, g) q /\ flags_describe (c_modes o) g (c_modes o)).
  { clear pc k RA f. induction PE as [a f o IN MO FD|a o pc k op rest t k' PE (g & IN & FD) RA RD DT EK].
    - exists f. split; [apply Q; exact IN|exact FD].
    - apply (arrives_flags _ _ _ _ g) in RA; [|exact FD]. destruct (runs_modes _ _ _ _ _ _ _ _ _ CO BS S FO IN RA) as (MK & c & op' & rest' & K & RD' & D & _).
      pose proof (session_good _ _ _ _ CO S) as G. destruct (good_entry _ _ _ _ G _ _ K) as [AP EN]. destruct (entry_open _ _ _ _ _ BS AP EN) as (op2 & rest2 & j & v & RD2 & B & R & DE & FA & RE & LO & SC & _).
      rewrite RD in RD2. injection RD2 as <- <-. rewrite DT in FA. rewrite <- (same_far _ _ _ _ SC) in FA.
      destruct (P _ _ _ K FA) as [(h & [I|[]] & BH)|(h & FH & _)]; [|discriminate FH]. exists h. split; [exact I|]. rewrite EK. apply (describes_own (c_modes o)). unfold fbelow in BH. rewrite <- BH. apply flags_merge_describes; [exact MK|].
      destruct D as [(D1 & D2 & D3 & _) _]. unfold left_flags. split; [exact D1|]. split; [exact D2|]. split; [exact D3|exact Logic.I]. }
  destruct EN as (g & IN & FD). apply (arrives_flags _ _ _ _ g) in RA; [|exact FD]. exact (runs _ _ _ _ _ _ _ _ _ CO BS S FO IN RA).
Qed.

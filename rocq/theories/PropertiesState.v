(** Property theorems for tracked processor states: C15, C17, C18, C19. *)
From Verif Require Import Base ModelMnemonic ModelExpr ModelAMode ModelOpcode ModelState ModelInstr.
From Verif Require Import SpecState StateProofs ExecProofs.

(** C15.  The flag states that StatusFlags operations can produce are exactly the
    consistent ones. *)
Theorem C15_consistency : forall f, produced f <-> consistent f.
Proof. exact produced_iff. Qed.
Example C15_consistency_case :
  produced (set_m B_off (mk_flags B_off B_on B_original B_unknown)) /\
  ~ consistent (RawFlags B_unknown B_off B_on B_on) /\
  ~ consistent (RawFlags B_on B_on B_unknown B_on).
Proof.
  split; [repeat constructor|]. split; intros [H1 H2]; cbn in *;
    [destruct H1; discriminate|discriminate].
Qed.
Print Assumptions C15_consistency.

(** Merging is a join: closed on consistent states, idempotent, commutative, associative,
    and below every state that absorbs both arguments. *)
Theorem C15_merge : forall a b c, es_consistent a -> es_consistent b -> es_consistent c ->
  es_consistent (es_merge a b) /\
  es_merge a a = a /\ es_merge a b = es_merge b a /\
  es_merge (es_merge a b) c = es_merge a (es_merge b c) /\
  (es_merge a c = c -> es_merge b c = c -> es_merge (es_merge a b) c = c).
Proof. exact merge_laws. Qed.
Example C15_merge_case :
  let a := EState (RV_value 5) RV_original RV_unknown RV_unknown (mk_flags B_off B_on B_off B_on)
             (Live [SV_byte 3; SV_flags (mk_flags B_original B_original B_on B_off)]) in
  let b := EState (RV_value 6) RV_original RV_unknown RV_unknown (mk_flags B_on B_on B_on B_on)
             (Live [SV_byte 3; SV_flags (mk_flags B_original B_on B_on B_off)]) in
  es_consistent a /\ es_consistent b /\
  es_merge a b = EState RV_unknown RV_original RV_unknown RV_unknown
    (mk_flags B_unknown B_on B_unknown B_on)
    (Live [SV_byte 3; SV_flags (mk_flags B_original B_unknown B_on B_off)]).
Proof.
  cbn. split; [|split; [|reflexivity]]; (split; [repeat split|]); intros v [<-|[<-|[]]];
    cbn; repeat split; cbn; discriminate.
Qed.
Print Assumptions C15_merge.

(** What both arguments know, component by component, is still known after the merge. *)
Theorem C15_keeps : forall a b,
  (es_a a = es_a b -> es_a (es_merge a b) = es_a a) /\
  (es_xr a = es_xr b -> es_xr (es_merge a b) = es_xr a) /\
  (es_yr a = es_yr b -> es_yr (es_merge a b) = es_yr a) /\
  (es_dbr a = es_dbr b -> es_dbr (es_merge a b) = es_dbr a) /\
  (fl_e (es_flags a) = fl_e (es_flags b) ->
   fl_e (es_flags (es_merge a b)) = fl_e (es_flags a)) /\
  (fl_c (es_flags a) = fl_c (es_flags b) ->
   fl_c (es_flags (es_merge a b)) = fl_c (es_flags a)) /\
  (consistent (es_flags a) ->
   fl_e (es_flags a) = fl_e (es_flags b) \/ fl_m (es_flags a) = B_on ->
   fl_m (es_flags a) = fl_m (es_flags b) ->
   fl_m (es_flags (es_merge a b)) = fl_m (es_flags a)) /\
  (consistent (es_flags a) ->
   fl_e (es_flags a) = fl_e (es_flags b) \/ fl_x (es_flags a) = B_on ->
   fl_x (es_flags a) = fl_x (es_flags b) ->
   fl_x (es_flags (es_merge a b)) = fl_x (es_flags a)) /\
  (forall l k, es_stack a = Live l -> es_stack b = Live k -> List.length l = List.length k ->
   Forall (fun v => is_varsize v = false) l -> Forall (fun v => is_varsize v = false) k ->
   exists r, es_stack (es_merge a b) = Live r /\ List.length r = List.length l /\
     forall n v, nth_error l n = Some v -> nth_error k n = Some v -> slot_consistent v ->
       nth_error r n = Some v) /\
  (es_stack a = es_stack b -> stack_consistent (es_stack a) ->
   es_stack (es_merge a b) = es_stack a).
Proof. exact merge_keeps. Qed.
Example C15_keeps_case :
  let a := EState (RV_value 5) RV_unknown RV_unknown RV_unknown (mk_flags B_off B_on B_off B_on)
             (Live [SV_byte 3; SV_lo R_a]) in
  let b := EState (RV_value 5) RV_original RV_unknown RV_unknown (mk_flags B_on B_on B_on B_on)
             (Live [SV_byte 4; SV_lo R_a]) in
  es_a (es_merge a b) = RV_value 5 /\ fl_m (es_flags (es_merge a b)) = B_on /\
  es_stack (es_merge a b) = Live [SV_unknown; SV_lo R_a].
Proof. repeat split. Qed.
Print Assumptions C15_keeps.

(** C17.  Merging never loses a possibility. *)
Theorem C17_merge : forall o a b c, modes_ok (c_modes c) ->
  describes o a c \/ describes o b c -> describes o (es_merge a b) c.
Proof. exact merge_describes. Qed.
Example C17_merge_case :
  let o := Cpu (Modes false true false true) 0x105 0x1234 7 0 [] in
  let c := Cpu (Modes false true false true) 0x105 0x1234 8 0 [0x21; 3] in
  let a := EState (RV_value 5) RV_original RV_unknown RV_unknown (mk_flags B_off B_on B_off B_on)
             (Live [SV_flags (mk_flags B_off B_on B_off B_on); SV_byte 3]) in
  let b := EState (RV_value 6) RV_original RV_unknown RV_unknown (mk_flags B_off B_off B_on B_on)
             (Live [SV_flags (mk_flags B_on B_on B_on B_on); SV_byte 4]) in
  modes_ok (c_modes c) /\ describes o a c /\ ~ describes o b c.
Proof.
  cbn. split; [intros E; discriminate E|]. split.
  - repeat split. apply (ss_cons _ _ _ [0x21] [3]).
    + eapply (sd_flags _ _ (Modes false true false true)); [intros E; discriminate E| |]; repeat split.
    + apply (ss_cons _ _ _ [3] []); constructor.
  - intros ((_ & D & _) & _). discriminate D.
Qed.
Print Assumptions C17_merge.

(** C18.  Full claim: whatever instruction the analysis accepts, if the tracked state
    describes the processor before it, the updated tracked state describes it afterwards.
    Proved: mode bits and saved status bytes (the part that decides operand widths), when
    execution falls through.  Missing, because false (below): the values of registers; the
    instructions that move the stack without being followed; XCE on bits "as on entry". *)
Theorem C18_step_partial : forall o ctx i v s s' c c',
  modes_ok (c_modes o) -> modes_ok (c_modes c) ->
  execute_in ctx i s = Ok s' ->
  (forall w, eval_opt ctx (i_arg1 i) = Ok w -> v = w) ->
  stack_untracked (i_mnem i) = false ->
  (i_mnem i = M_xce -> fl_e (es_flags s) <> B_original /\ fl_c (es_flags s) <> B_original) ->
  describes_modes o s c -> mode_step o i v c c' ->
  describes_modes o s' c' /\ modes_ok (c_modes c').
Proof. exact execute_modes. Qed.
Example C18_step_partial_case :
  let o := Cpu (Modes false true true false) 0 0 0 0 [] in
  let c' := Cpu (Modes false false true false) 0 0 0 0 [] in
  let i := Instr M_rep S_none A_imm_b (Some (mk_lit 0x20 ModelNumeric.T_byte)) None RC_default in
  let s := estate_of_flags (mk_flags B_off B_on B_on B_unknown) in
  describes_modes o s o /\ mode_step o i 0x20 o c' /\
  execute_in null_ctx i s = Ok (estate_of_flags (mk_flags B_off B_off B_on B_unknown)).
Proof.
  cbn zeta. split; [split; [repeat split|constructor]|].
  split; [split; reflexivity|vm_compute; reflexivity].
Qed.
Print Assumptions C18_step_partial.

(** The same for a relative branch that is taken. *)
Theorem C18_branch_partial : forall o i s s' c c',
  execute_branch i s = Ok s' -> relative_branch (i_mnem i) ->
  modes_ok (c_modes c) -> describes_modes o s c -> branch_step i c c' ->
  describes_modes o s' c' /\ modes_ok (c_modes c').
Proof. exact branch_modes. Qed.
Example C18_branch_partial_case :
  let o := Cpu (Modes false true true true) 0 0 0 0 [] in
  let i := Instr M_bcs S_none A_rel8 (Some (mk_lit 0 ModelNumeric.T_byte)) None RC_default in
  let s := estate_of_flags (mk_flags B_off B_on B_on B_unknown) in
  relative_branch (i_mnem i) /\ describes_modes o s o /\ branch_step i o o /\
  execute_branch i s = Ok (upd_flags (set_c B_on) s).
Proof.
  cbn zeta. split; [cbn; tauto|]. split; [split; [repeat split|constructor]|].
  split; [repeat split|vm_compute; reflexivity].
Qed.
Print Assumptions C18_branch_partial.

(** PHB pushes a byte; the analysis does not record it, so a later PLP is taken to restore
    flags that are not the ones pulled. *)
Theorem C18_stack_refuted : exists o s c i s',
  modes_ok (c_modes o) /\ modes_ok (c_modes c) /\ describes_modes o s c /\
  i_mnem i = M_phb /\ execute i s = Ok s' /\
  exists c', mode_step o i 0 c c' /\ ~ describes_modes o s' c'.
Proof. exact untracked_wrong. Qed.
Print Assumptions C18_stack_refuted.

(** XCE as the first instruction of a routine entered with unknown flags. *)
Theorem C18_xce_refuted : exists o c i s',
  modes_ok (c_modes o) /\ c = o /\ i_mnem i = M_xce /\
  describes_modes o (estate_of_flags default_flags) c /\
  execute i (estate_of_flags default_flags) = Ok s' /\
  exists c', mode_step o i 0 c c' /\ ~ describes_modes o s' c'.
Proof. exact xce_wrong. Qed.
Print Assumptions C18_xce_refuted.

(** LDA from memory leaves the tracked accumulator as it was. *)
Theorem C18_registers_refuted : exists o s c i s',
  modes_ok (c_modes c) /\ describes o s c /\
  i_mnem i = M_lda /\ i_mode i = A_dir_b /\ execute i s = Ok s' /\
  exists c', load_step c c' /\ ~ describes o s' c'.
Proof. exact registers_wrong. Qed.
Print Assumptions C18_registers_refuted.

(** C19.  Full claim: pushing a register and pulling it back with the same width restores
    the tracked state.  Proved: for P; for 8-bit registers; for 16-bit registers whose
    tracked value is not a number.  Missing, because false (below): 16-bit numbers, and
    registers whose width is "as on entry".  With an unknown width the stack is given up. *)
Theorem C19_flags : forall s l, es_stack s = Live l -> consistent (es_flags s) ->
  pull_flags (push_flags s) = s.
Proof. exact pull_push_flags. Qed.
Example C19_flags_case :
  consistent (es_flags (estate_of_flags (mk_flags B_unknown B_on B_off B_on))).
Proof. split; discriminate. Qed.
Print Assumptions C19_flags.

Theorem C19_narrow_partial : forall t s l, es_stack s = Live l -> width_of t s = B_on ->
  (forall n, value_of t s = RV_value n -> 0 <= n < 2 ^ 8) ->
  pull_of t (push_of t s) = Ok s.
Proof. exact pull_push_narrow. Qed.
Example C19_narrow_partial_case :
  let s := EState (RV_value 0x7f) RV_unknown RV_original RV_unknown
             (mk_flags B_off B_on B_off B_on) (Live [SV_byte 3]) in
  es_stack (push_of R_a s) = Live [SV_byte 0x7f; SV_byte 3] /\
  pull_of R_a (push_of R_a s) = Ok s.
Proof. split; reflexivity. Qed.
Print Assumptions C19_narrow_partial.

Theorem C19_wide_partial : forall t s l, es_stack s = Live l -> width_of t s = B_off ->
  (forall n, value_of t s <> RV_value n) ->
  pull_of t (push_of t s) = Ok s.
Proof. exact pull_push_wide. Qed.
Example C19_wide_partial_case :
  let s := EState RV_unknown RV_original RV_unknown RV_unknown
             (mk_flags B_off B_on B_off B_on) (Live [SV_byte 3]) in
  es_stack (push_of R_x s) = Live [SV_lo R_x; SV_hi R_x; SV_byte 3] /\
  pull_of R_x (push_of R_x s) = Ok s.
Proof. split; reflexivity. Qed.
Print Assumptions C19_wide_partial.

(** A 16-bit number comes back with its bytes exchanged. *)
Theorem C19_wide_refuted : forall t s l n, es_stack s = Live l -> width_of t s = B_off ->
  value_of t s = RV_value n -> 0 <= n < 2 ^ 16 ->
  exists s', pull_of t (push_of t s) = Ok s' /\
    value_of t s' = RV_value (2 ^ 8 * (n mod 2 ^ 8) + n / 2 ^ 8) /\ es_stack s' = es_stack s.
Proof. exact pull_push_swapped. Qed.
Example C19_wide_refuted_case :
  let s := EState (RV_value 0x1234) RV_unknown RV_unknown RV_unknown
             (mk_flags B_off B_off B_off B_on) (Live []) in
  bind (pull_of R_a (push_of R_a s)) (fun s' => Ok (es_a s')) = Ok (RV_value 0x3412).
Proof. reflexivity. Qed.
Print Assumptions C19_wide_refuted.

(** With the width "as on entry" the pull fails an assertion. *)
Theorem C19_original_refuted : forall t s l, es_stack s = Live l -> width_of t s = B_original ->
  pull_of t (push_of t s) = UB UB_assert.
Proof. exact pull_push_original. Qed.
Example C19_original_refuted_case :
  width_of R_a (estate_of_flags default_flags) = B_original /\
  es_stack (estate_of_flags default_flags) = Live [].
Proof. split; reflexivity. Qed.
Print Assumptions C19_original_refuted.

(** One iteration of the disassembler. *)
From Verif Require Import Base ModelNumeric ModelAddress ModelExpr ModelMnemonic ModelAMode ModelOpcode ModelState ModelInstr ModelMap ModelRom ModelDisasm
  SpecState BaseProofs MapProofs StateProofs DisStateProofs.
Open Scope list_scope.
Open Scope Z_scope.
Local Opaque check_consistency execute_in execute_branch decode far_branch_target.

(** ** The instructions found so far. *)
Definition view (old new : omap dinstr) (a : Z) : option dinstr :=
  match om_find a new with Some d => Some d | None => om_find a old end.
Lemma get_spec : forall old new a r new', sorted_keys new -> get_instruction old new a = (r, new') ->
  r = view old new a /\ sorted_keys new' /\ (forall b, view old new' b = view old new b) /\
  (forall b, om_find b new' = om_find b new \/ b = a /\ om_find b new' = om_find b old) /\ (forall d, r = Some d -> om_find a new' = Some d).
Proof.
  intros old new a r new' S H. unfold get_instruction in H. unfold view. destruct (om_find a new) as [d|] eqn:E.
  - injection H as <- <-. repeat split; auto. intros d' D. congruence.
  - destruct (om_find a old) as [d|] eqn:O; injection H as <- <-.
    + split; [reflexivity|]. split; [apply om_set_sorted; exact S|]. split; [|split].
      * intros b. rewrite om_find_set by exact S. destruct (Z.eqb_spec a b) as [<-|N]; [rewrite E, O|]; reflexivity.
      * intros b. rewrite om_find_set by exact S. destruct (Z.eqb_spec a b) as [<-|N]; auto.
      * intros d' D. rewrite om_find_set, Z.eqb_refl by exact S. congruence.
    + repeat split; auto. discriminate.
Qed.

(** ** Pushing several states. *)
Definition push_all (ps : list (Z * estate)) (st : omap estate) : omap estate :=
  fold_left (fun st p => om_merge es_merge (fst p) (snd p) st) ps st.
Lemma push_all_app : forall ps qs st, push_all (ps ++ qs) st = push_all qs (push_all ps st).
Proof. intros. apply fold_left_app. Qed.
Lemma push_all_sorted : forall ps st, sorted_keys st -> sorted_keys (push_all ps st).
Proof. induction ps as [|p ps IH]; intros st S; [exact S|]. apply IH. apply om_merge_sorted. exact S. Qed.
Definition all_states (P : Z -> estate -> Prop) (st : omap estate) : Prop := forall j t, om_find j st = Some t -> P j t.
Lemma push_all_all : forall (P : Z -> estate -> Prop) ps st, (forall k a b, P k a -> P k b -> P k (es_merge a b)) -> sorted_keys st ->
  all_states P st -> (forall k s, In (k, s) ps -> P k s) -> all_states P (push_all ps st).
Proof.
  intros P. induction ps as [|[k s] ps IH]; intros st M S A H; [exact A|]. cbn [push_all fold_left fst snd]. apply IH; [exact M|apply om_merge_sorted; exact S| |].
  - intros j t F. rewrite om_find_merge in F by exact S. destruct (Z.eqb_spec k j) as [<-|N]; [|auto]. injection F as <-.
    destruct (om_find k st) eqn:E; [apply M; [auto|]|]; apply H; left; reflexivity.
  - intros j t I. apply H. right. exact I.
Qed.
(** A state that covers [s] waits at [j]. *)
Definition waits (st : omap estate) (j : Z) (s : estate) : Prop := exists t, om_find j st = Some t /\ below s t.
Definition all_con (st : omap estate) : Prop := all_states (fun _ s => es_consistent s) st.
Lemma push_all_waits : forall ps st j s, sorted_keys st -> all_con st -> (forall k t, In (k, t) ps -> es_consistent t) -> es_consistent s ->
  waits st j s \/ In (j, s) ps -> waits (push_all ps st) j s.
Proof.
  induction ps as [|[k t] ps IH]; intros st j s S C P CS H; [destruct H as [H|[]]; exact H|]. cbn [push_all fold_left fst snd].
  assert (CT : es_consistent t) by (apply (P k); left; reflexivity).
  apply IH; [apply om_merge_sorted; exact S| |intros k' t' I; apply (P k'); right; exact I|exact CS|].
  - intros j' t' F. rewrite om_find_merge in F by exact S. destruct (Z.eqb_spec k j') as [<-|N]; [|eapply C; exact F]. injection F as <-.
    destruct (om_find k st); [apply es_merge_consistent|exact CT].
  - destruct H as [(u & F & B)|[E|I]]; [left|left|right; exact I].
    + unfold waits. rewrite om_find_merge by exact S. destruct (Z.eqb_spec k j) as [->|N]; [|eauto]. rewrite F. eexists. split; [reflexivity|].
      eapply below_trans; [exact CS|exact (C _ _ F)|apply es_merge_consistent|exact B|apply below_l; [exact (C _ _ F)|exact CT]].
    + injection E as -> ->. unfold waits. rewrite om_find_merge, Z.eqb_refl by exact S. eexists. split; [reflexivity|].
      destruct (om_find j st) as [u|] eqn:F; [apply below_r; [exact (C _ _ F)|exact CS]|apply below_refl; exact CS].
Qed.
Lemma push_all_keys : forall ps st j s, sorted_keys st -> om_find j (push_all ps st) = Some s -> (exists s', om_find j st = Some s') \/ (exists s', In (j, s') ps).
Proof.
  induction ps as [|[k t] ps IH]; intros st j s S F; [eauto|]. cbn [push_all fold_left fst snd] in F.
  destruct (IH _ _ _ (om_merge_sorted _ _ _ _ _ S) F) as [[s' X]|[s' X]]; [|right; exists s'; right; exact X].
  rewrite om_find_merge in X by exact S. destruct (Z.eqb_spec k j) as [->|N]; [right; exists t; left; reflexivity|eauto].
Qed.

(** ** First visits. *)
Definition called (rets : omap retconv) (far : option Z) (i : instr) : retconv :=
  match far, i_mnem i with
  | Some t, (M_jsr | M_jsl) => match om_find t rets with Some r => r | None => i_ret i end
  | _, _ => i_ret i
  end.
Definition after_call (far : option Z) (r : retconv) (s : estate) : estate := match far with Some _ => rc_apply r s | None => s end.
Definition far_added (far : option Z) (s : estate) (w : dwork) : dwork := match far with Some t => dw_add_far t s w | None => w end.
Lemma get_label_rest : forall old w a lab w', get_label old w a = (lab, w') ->
  dw_new w' = dw_new w /\ dw_stack w' = dw_stack w /\ dw_far w' = dw_far w.
Proof.
  intros old w a lab w' H. unfold get_label in H. destruct (om_find a (dw_labels w)); [injection H as <- <-; auto|].
  destruct (om_find a old) as [d|]; [destruct (String.eqb (di_label d) "")|]; injection H as <- <-; auto.
Qed.
Lemma i_ret_id : forall i, i_with_ret (i_ret i) i = i.
Proof. intros []; reflexivity. Qed.
Lemma far_added_rest : forall far s w, dw_new (far_added far s w) = dw_new w /\ dw_stack (far_added far s w) = dw_stack w /\
  dw_labels (far_added far s w) = dw_labels w /\ dw_sym (far_added far s w) = dw_sym w.
Proof. intros [t|] s w; auto. Qed.

Definition falls (i : instr) (a : Z) (s : estate) : list (Z * estate) := if is_exit_instruction i then [] else [(a, s)].
(** The operand gets a label and its target a state, if the instruction is a relative branch. *)
Inductive labelled (old : omap dinstr) (next_pc : Z) (cur : estate) (w0 : dwork) (i1 : instr) : instr -> dwork -> list (Z * estate) -> Prop :=
| lb_no : is_local_branch i1 = false -> labelled old next_pc cur w0 i1 i1 w0 []
| lb_yes : forall v lab lw bs, is_local_branch i1 = true -> branch_offset i1 = Ok v ->
    get_label old w0 (add_wrapped next_pc v) = (lab, lw) ->
    execute_branch (i_with_arg1 (apply_label lab (i_arg1 i1)) i1) cur = Ok bs ->
    labelled old next_pc cur w0 i1 (i_with_arg1 (apply_label lab (i_arg1 i1)) i1) lw [(add_wrapped next_pc v, bs)].

Lemma visit_new_spec : forall src rets old pc cur w w1 w', visit_new src rets old pc cur w = (w1, Ok w') ->
  exists bytes i0 nx0 far i lw ps,
  let r := called rets far i0 in let nx := after_call far r nx0 in let next_pc := add_wrapped pc (instruction_length (i_mode i0)) in
  src pc 4 = Ok bytes /\ decode bytes (es_flags cur) = Ok i0 /\ execute i0 cur = Ok nx0 /\ far_branch_target i0 pc = Ok far /\
  labelled old next_pc cur (far_added far nx0 w) (i_with_ret r i0) i lw ps /\
  w' = DWork (om_set pc (DInstr "" i false cur nx) (dw_new w)) (dw_labels lw)
             (push_all (ps ++ falls i next_pc nx) (dw_stack w)) (dw_far lw) (dw_sym lw).
Proof.
  intros src rets old pc cur w w1 w' H. unfold visit_new in H.
  destruct (let* bytes := src pc 4 in let* i := decode bytes (es_flags cur) in let* next := execute i cur in Ok (i, next)) as [[i0 nx0]|e|u|] eqn:E; [|discriminate H..].
  bok E as bytes RD. bok E as i0' DE. bok E as nx0' EX. injection E as -> ->.
  destruct (far_branch_target i0 pc) as [far|e|u|] eqn:FA; [|discriminate H..].
  set (r := called rets far i0). set (next_pc := add_wrapped pc (instruction_length (i_mode i0))) in *.
  assert (X : match far with
    | None => (i0, nx0, w)
    | Some target => let w0 := dw_add_far target nx0 w in
        let i := match i_mnem i0 with M_jsr | M_jsl => match om_find target rets with Some r => i_with_ret r i0 | None => i0 end | _ => i0 end in
        (i, rc_apply (i_ret i) nx0, w0)
    end = (i_with_ret r i0, after_call far r nx0, far_added far nx0 w)).
  { unfold r, called, after_call, far_added. destruct far as [t|]; [|rewrite i_ret_id; reflexivity]. cbv zeta.
    assert (Y : match i_mnem i0 with M_jsr | M_jsl => match om_find t rets with Some r => i_with_ret r i0 | None => i0 end | _ => i0 end =
      i_with_ret (match i_mnem i0 with M_jsr | M_jsl => match om_find t rets with Some r => r | None => i_ret i0 end | _ => i_ret i0 end) i0)
      by (destruct (i_mnem i0); try (rewrite i_ret_id; reflexivity); destruct (om_find t rets); rewrite ?i_ret_id; reflexivity).
    rewrite Y. reflexivity. }
  cbv zeta in X, H. rewrite X in H. clear X. cbv beta iota zeta in H.
  set (i1 := i_with_ret r i0) in *. set (nx := after_call far r nx0) in *. set (w0 := far_added far nx0 w) in *.
  destruct (far_added_rest far nx0 w) as (N0 & S0 & L0 & Y0). fold w0 in N0, S0, L0, Y0.
  assert (FIN : forall i lw ps, dw_new lw = dw_new w -> dw_stack lw = push_all ps (dw_stack w) ->
    (let w2 := dw_set_new (om_set pc (DInstr "" i false cur nx) (dw_new lw)) lw in if is_exit_instruction i then w2 else dw_push next_pc nx w2) =
    DWork (om_set pc (DInstr "" i false cur nx) (dw_new w)) (dw_labels lw) (push_all (ps ++ falls i next_pc nx) (dw_stack w)) (dw_far lw) (dw_sym lw)).
  { intros i lw ps NE SE. cbv zeta. rewrite push_all_app. unfold falls. destruct (is_exit_instruction i); unfold dw_push, dw_set_new; cbn; rewrite NE, SE; reflexivity. }
  destruct (is_local_branch i1) eqn:LB.
  - destruct (branch_offset i1) as [v|e|u|] eqn:BO; [|discriminate H..].
    destruct (get_label old w0 (add_wrapped next_pc v)) as [lab lw] eqn:GL.
    destruct (execute_branch (i_with_arg1 (apply_label lab (i_arg1 i1)) i1) cur) as [bs|e|u|] eqn:EB; [|discriminate H..].
    destruct (get_label_rest _ _ _ _ _ GL) as (NL & SL & FL).
    injection H as _ H. exists bytes, i0, nx0, far, (i_with_arg1 (apply_label lab (i_arg1 i1)) i1), lw, [(add_wrapped next_pc v, bs)]. cbv zeta.
    split; [exact RD|]. split; [exact DE|]. split; [exact EX|]. split; [exact FA|]. split; [eapply lb_yes; eauto|]. rewrite <- H.
    rewrite <- (FIN _ (dw_push (add_wrapped next_pc v) bs lw) [(add_wrapped next_pc v, bs)]); [reflexivity|unfold dw_push; cbn; congruence|].
    unfold dw_push. cbn. rewrite SL, S0. reflexivity.
  - injection H as _ H. exists bytes, i0, nx0, far, i1, w0, []. cbv zeta.
    split; [exact RD|]. split; [exact DE|]. split; [exact EX|]. split; [exact FA|]. split; [apply lb_no; exact LB|]. rewrite <- H. apply FIN; [exact N0|exact S0].
Qed.

(** ** Later visits. *)
Lemma visit_again_spec : forall src pc cur d w w', visit_again src pc cur d w = Ok w' ->
  let combined := es_merge cur (di_cur d) in let i := di_instr d in let next_pc := add_wrapped pc (instruction_length (i_mode i)) in
  (below cur (di_cur d) /\ w' = w) \/
  (~ below cur (di_cur d) /\ exists bytes i0 nx far ps,
   src pc 4 = Ok bytes /\ decode bytes (es_flags combined) = Ok i0 /\ execute i combined = Ok nx /\ far_branch_target i pc = Ok far /\
   (is_local_branch i = false /\ ps = [] \/
    is_local_branch i = true /\ exists v bs, execute_branch i cur = Ok bs /\ branch_offset i = Ok v /\ ps = [(add_wrapped next_pc v, bs)]) /\
   w' = DWork (om_set pc (DInstr (di_label d) i (di_entry d) combined nx) (dw_new w)) (dw_labels w)
              (push_all (falls i next_pc nx ++ ps) (dw_stack w)) (dw_far (far_added far nx w)) (dw_sym w)).
Proof.
  intros src pc cur d w w' H combined i next_pc. unfold visit_again in H. fold combined in H. cbv zeta in H. fold i in H. fold next_pc in H.
  destruct (es_eqb combined (di_cur d)) eqn:EQ.
  - left. injection H as <-. apply es_eqb_eq in EQ. split; [exact EQ|reflexivity].
  - right. split. { intros B. unfold below in B. fold combined in B. apply es_eqb_eq in B. congruence. }
    bok H as bytes RD. bok H as i0 DE. bok H as nx EX. bok H as far FA.
    assert (RD' : src pc 4 = Ok bytes) by (destruct (src pc 4); [exact RD|discriminate RD..]).
    exists bytes, i0, nx, far.
    set (w1 := dw_set_new (om_set pc (DInstr (di_label d) i (di_entry d) combined nx) (dw_new w)) w) in *.
    set (w2 := if is_exit_instruction i then w1 else dw_push next_pc nx w1) in *.
    assert (W2 : dw_new w2 = om_set pc (DInstr (di_label d) i (di_entry d) combined nx) (dw_new w) /\ dw_stack w2 = push_all (falls i next_pc nx) (dw_stack w) /\
       dw_labels w2 = dw_labels w /\ dw_sym w2 = dw_sym w /\ dw_far w2 = dw_far w) by (unfold w2, falls; destruct (is_exit_instruction i); auto).
    destruct W2 as (N2 & S2 & L2 & Y2 & F2).
    assert (W3 : match far with Some t => dw_add_far t nx w2 | None => w2 end = far_added far nx w2) by (destruct far; reflexivity). rewrite W3 in H. clear W3.
    destruct (far_added_rest far nx w2) as (N3 & S3 & L3 & Y3).
    assert (F3 : dw_far (far_added far nx w2) = dw_far (far_added far nx w)) by (destruct far; cbn; rewrite ?F2; reflexivity).
    clearbody w2. clear w1.
    destruct (is_local_branch i) eqn:LB.
    + bok H as bs BS. bok H as v BV. injection H as <-. exists [(add_wrapped next_pc v, bs)].
      split; [exact RD'|]. split; [exact DE|]. split; [exact EX|]. split; [exact FA|]. split; [right; split; [reflexivity|eauto]|].
      rewrite push_all_app, <- S2, <- S3, <- N2, <- N3, <- L2, <- L3, <- F3, <- Y2, <- Y3. reflexivity.
    + injection H as <-. exists []. split; [exact RD'|]. split; [exact DE|]. split; [exact EX|]. split; [exact FA|]. split; [left; auto|].
      rewrite app_nil_r, <- S2, <- S3, <- N2, <- N3, <- L2, <- L3, <- F3, <- Y2, <- Y3. destruct (far_added far nx w2); reflexivity.
Qed.

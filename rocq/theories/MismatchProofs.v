(** Proofs that a difference from an image is reported for the statement that makes it. *)
From Verif Require Import BaseProofs ModelNumeric ModelAddress ModelMnemonic ModelExpr ModelAMode
  ModelOpcode ModelState ModelInstr ModelToken ModelStatement ModelParse ModelMap ModelRanges
  ModelModule ModelAssembler ModelRom ModelTools ModelLocation ModelRomText
  SpecArith SpecInstr SpecScope SpecLayout SpecAssemble SpecSink SpecLocation SpecRom SpecRomText AssembleProofs ProgramProofs SinkProofs LocationProofs LocatedProofs RomTextProofs.
Open Scope string_scope.
Open Scope list_scope.
Open Scope Z_scope.

(** ** Errors that only an image, or only the reading of a line, gives. *)
Definition image_kind (e : err) : bool := match e with E_rom_address | E_rom_range | E_mismatch | E_sink | E_token | E_parse | E_no_mode | E_suffix | E_convention => true | _ => false end.
Definition clear {A} (r : res A) : Prop := forall e, r = Err e -> image_kind e = false.
Lemma clear_bind : forall A B (r : res A) (f : A -> res B), clear r -> (forall a, clear (f a)) -> clear (bind r f).
Proof. intros A B [a|e|u|] f R F x H; cbn [bind] in H; [exact (F a x H)|injection H as <-; exact (R e eq_refl)|discriminate..]. Qed.
Lemma clear_ok : forall A (a : A), clear (Ok a).
Proof. intros A a e H. discriminate H. Qed.
Lemma clear_ub : forall A u, clear (@UB A u).
Proof. intros A u e H. discriminate H. Qed.
Lemma clear_err : forall A e, image_kind e = false -> clear (@Err A e).
Proof. intros A e K x H. injection H as <-. exact K. Qed.
Lemma clear_fuel : forall A, clear (@OutOfFuel A).
Proof. intros A e H. discriminate H. Qed.
Ltac cl := repeat first [apply clear_ok|apply clear_ub|apply clear_fuel|apply clear_err; reflexivity|apply clear_bind; [|intros]|match goal with |- clear (match ?x with _ => _ end) => destruct x end].
Lemma clear_int : forall z, clear (int_result z).
Proof. intros z. unfold int_result. cl. Qed.
Lemma clear_eval : forall c e, looks_up c -> clear (eval c e).
Proof.
  intros c e L. induction e as [v t|id t|op l IHl r IHr|op e IH|l e IH]; cbn [eval].
  - apply clear_ok.
  - intros x H. apply L in H. destruct H as [<-|[<-|[<-|[<-|[]]]]]; reflexivity.
  - destruct (eval c l) as [a|e1|u|], (eval c r) as [b|e2|u2|]; try apply clear_ub; try apply clear_fuel; try exact IHl; try exact IHr; try (intros x H; injection H as <-; first [exact (IHl _ eq_refl)|exact (IHr _ eq_refl)]).
    unfold apply_binop. destruct op; try apply clear_int. destruct (b =? 0); [apply clear_err; reflexivity|apply clear_int].
  - apply clear_bind; [exact IH|]. intros a. unfold apply_unop. destruct op; try apply clear_ok; apply clear_int.
  - exact IH.
Qed.
Lemma clear_eval_opt : forall c e, looks_up c -> clear (eval_opt c e).
Proof. intros c [e|] L; cbn [eval_opt]; [apply clear_eval, L|apply clear_err; reflexivity]. Qed.
Lemma clear_maybe : forall c e, clear (maybe_arg c e).
Proof. intros c e. unfold maybe_arg. cl. Qed.
Lemma clear_add : forall a b r, clear (rv_add a b r).
Proof. intros a b r. unfold rv_add. repeat first [apply clear_int|progress cl]. Qed.
Lemma clear_consistency : forall i f, clear (check_consistency i f).
Proof. intros i f. unfold check_consistency. cbv zeta. destruct (negb _); [apply clear_err; reflexivity|]. apply clear_bind; [cl|]. intros _. destruct (i_mode i); cl. Qed.
Lemma clear_pull : forall s, clear (pull_a s) /\ clear (pull_x s) /\ clear (pull_y s).
Proof.
  intros s. assert (P : forall t b k, clear (pull_reg t b k)).
  { intros t b k. unfold pull_reg. assert (V : forall k, clear (pull_varsize k)) by (intros k0; unfold pull_varsize; cl).
    assert (W : forall v, clear (sv_value v)) by (intros v; unfold sv_value; cl). repeat first [apply V|apply W|progress cl]. }
  unfold pull_a, pull_x, pull_y. repeat split; (apply clear_bind; [apply P|intros [r k]; apply clear_ok]).
Qed.
Lemma clear_execute : forall c i s, clear (execute_in c i s).
Proof.
  intros c i s. unfold execute_in. cbv zeta. apply clear_bind; [apply clear_consistency|]. intros _. destruct (clear_pull s) as (PA & PX & PY).
  destruct (i_mnem i); try apply clear_ok; try assumption; repeat first [apply clear_maybe|apply clear_add|apply clear_int|progress cl].
Qed.
Lemma clear_bytes : forall a c i, looks_up c -> clear (instr_bytes a c i).
Proof.
  intros a c i L. unfold instr_bytes. destruct (match i_mnem i with PM_add => _ | PM_sub => _ | _ => _ end) as [prefix tm].
  destruct (encode_opcode tm (i_mode i)); [|apply clear_err; reflexivity]. cbv zeta.
  assert (E : forall e, clear (eval_opt c e)) by (intros e; apply clear_eval_opt, L).
  assert (M : forall v, clear (mk_address v)) by (intros v; unfold mk_address; cl).
  assert (S : forall x y, clear (subtract_wrapped x y)) by (intros x y; unfold subtract_wrapped; cl).
  destruct (i_mode i); repeat first [apply E|apply M|apply S|progress cl].
Qed.
Lemma clear_list : forall d c l, looks_up c -> clear (encode_list d c l).
Proof. intros d c l L. induction l as [|e l IH]; cbn [encode_list]; [apply clear_ok|]. apply clear_bind; [apply clear_eval, L|]. intros v. apply clear_bind; [exact IH|]. intros r. apply clear_ok. Qed.
Lemma clear_fails : forall s e, fails s e -> image_kind e = false.
Proof.
  intros s e [(st & H)|[(i & st & -> & H)|[(i & f & -> & H)|[(d & c & -> & _ & L & H)|(a & c & L & H)]]]]; revert H; generalize e.
  - destruct s as [i|d]; cbn [stmt_execute]; [apply clear_execute|]. unfold directive_execute. change (clear (match d_name d with D_db | D_dl | D_dw | D_org => Err E_exec_data | D_mode => Ok (with_flags (d_flags d) st) | _ => Ok st end)). cl.
  - change (clear (execute_branch i st)). unfold execute_branch. apply clear_bind; [apply clear_execute|]. intros. apply clear_ok.
  - change (clear (fix_addressing_mode i f)). unfold fix_addressing_mode. cl.
  - apply clear_eval_opt, L.
  - change (clear (stmt_bytes a c s)). destruct s as [i|d]; cbn [stmt_bytes]; [apply clear_bind; [apply clear_bytes, L|intros; apply clear_ok]|].
    unfold directive_bytes. destruct (d_name d); try apply clear_ok; (apply clear_bind; [apply clear_list, L|intros; apply clear_ok]).
Qed.

(** ** The whole program. *)
Lemma line_text : forall path n text, path <> "" -> error_to_string (line_of path n) text = (path ++ ":" ++ dec_string n ++ ": " ++ text)%string.
Proof.
  intros path n text P. unfold error_to_string, loc_to_string, line_of. cbn [loc_path loc_offset]. destruct (String.eqb_spec path "") as [|_]; [contradiction|].
  destruct (String.eqb_spec (path ++ ":" ++ dec_string n)%string "") as [X|_]; [destruct path; [contradiction|discriminate X]|].
  assert (AP : forall a b c : string, ((a ++ b) ++ c)%string = (a ++ (b ++ c))%string) by (intros x b c; induction x as [|ch x IH]; [reflexivity|cbn; rewrite IH; reflexivity]).
  rewrite !AP. reflexivity.
Qed.
Lemma difference_blamed : forall fuel image r files ws e l all a, Forall (fun f => fst f <> "") files ->
  assemble fuel takes_all (map snd files) = (all, Ok a) -> lassemble fuel (image_sink image r) files = (ws, LErr e l) -> In e [E_rom_address; E_rom_range; E_mismatch] ->
  exists path file src n before labels s after s' w c er, In (path, file) files /\ reads file src /\ src = before ++ (labels, s) :: after /\
    stands file (Z.of_nat (List.length before)) n /\ widened s s' /\ stmt_bytes (fst w) c s' = Ok (Some (snd w)) /\
    t_identity_write image r (fst w) (snd w) = TErr er /\ re_kind er = e /\
    error_to_string l (re_text er) = (path ++ ":" ++ dec_string n ++ ": " ++ re_text er)%string.
Proof.
  intros fuel image r files ws e l all a NE AO H IE. assert (K : image_kind e = true) by (destruct IE as [<-|[<-|[<-|[]]]]; reflexivity).
  assert (LD : forall path file, In (path, file) files -> exists m, load_asm_file file = Ok m).
  { unfold assemble in AO. apply wbind_ok in AO. destruct AO as (ws0 & a0 & A & _). injection A as _ A. destruct (add_files_spec _ _ _ A) as (ms & F & _).
    clear -F. intros path file I. remember (map snd files) as fs eqn:E. revert files E I. induction F as [|f m fs ms L F IH]; intros [|[p g] files] E I; try discriminate; [destruct I|].
    cbn [map snd] in E. injection E as -> ->. destruct I as [X|I]; [injection X as _ <-; exists m; exact L|exact (IH _ eq_refl I)]. }
  assert (NB : forall path file n text, In (path, file) files -> ~ first_bad file n text e).
  { intros path file n text I (before & after & -> & _ & _ & B). destruct (LD _ _ I) as [m L]. rewrite (B after) in L. discriminate L. }
  apply errors_located in H; [|exact NE]. destruct H as [path file n text I B|path file n text I B|path file src b n I E|path file src k n I RD ST BL|path file src before labels s E|E|E|i j path path' file file' src src' mn n k k' E].
  - destruct (NB _ _ _ _ I B).
  - destruct (NB _ _ _ _ I B).
  - subst e. discriminate K.
  - destruct BL as (before & labels & s & after & s' & E & -> & W & REST). cbv zeta in REST.
    destruct REST as [F|[[X _]|[[X _]|[[X _]|[[X _]|[[X _]|(w & c & SB & [[X _]|(l0 & SK)])]]]]]]; try (subst e; discriminate K).
    + apply clear_fails in F. congruence.
    + unfold image_sink in SK. destruct (t_identity_write image r (fst w) (snd w)) as [u|er|u] eqn:TI; try discriminate SK. injection SK as KE _.
      exists path, file, src, n, before, labels, s, after, s', w, c, er. split; [exact I|]. split; [exact RD|]. split; [exact E|]. split; [exact ST|]. split; [exact W|]. split; [exact SB|].
      split; [exact TI|]. split; [exact KE|]. apply line_text. rewrite Forall_forall in NE. exact (NE _ I).
  - subst e. discriminate K.
  - subst e. discriminate K.
  - subst e. discriminate K.
  - subst e. discriminate K.
Qed.

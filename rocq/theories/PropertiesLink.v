(** Properties of programs put together from files. *)
From Coq Require Import Permutation.
From Verif Require Import BaseProofs ModelNumeric ModelAddress ModelMnemonic ModelAMode ModelOpcode ModelExpr ModelInstr ModelState ModelToken ModelStatement ModelParse
  ModelMap ModelRanges ModelModule ModelAssembler SpecRanges SpecOrder SpecAssemble SpecLink PermuteProofs OrderFreeProofs LinkProofs.
Open Scope string_scope.
Open Scope list_scope.
Open Scope Z_scope.

(** C73.  Adding files to a program that can be assembled changes nothing about it, if the whole can be assembled: all of its writes
    are made, its modules (their lines, values, modes, far targets, ranges) are the same, and its addresses are still assembled. *)
Theorem C73_link : forall fuel (sk : sink) files more ws a ws' b, (forall ws1 ws2 w, sk ws1 w = sk ws2 w) ->
  assemble fuel sk files = (ws, Ok a) -> assemble fuel sk (files ++ more) = (ws', Ok b) ->
  exists added ms, Permutation ws' (ws ++ added) /\ as_mods b = as_mods a ++ ms /\ List.length ms = List.length more /\
    (forall x, assembler_contains a x = true -> assembler_contains b x = true).
Proof. exact link_judged. Qed.
(** The files may be added in any place. *)
Theorem C73_anywhere : forall fuel (sk : sink) files more all ws a ws' b, (forall ws1 ws2 w, sk ws1 w = sk ws2 w) -> Permutation all (files ++ more) ->
  assemble fuel sk files = (ws, Ok a) -> assemble fuel sk all = (ws', Ok b) ->
  exists added ms, Permutation ws' (ws ++ added) /\ Permutation (as_mods b) (as_mods a ++ ms) /\
    (forall x, assembler_contains a x = true -> assembler_contains b x = true).
Proof.
  intros fuel sk files more all ws a ws' b J P A B. destruct (file_order _ _ _ _ _ _ J P B) as (w2 & b2 & H & PW & PM & C & _).
  destruct (link_judged _ _ _ _ _ _ _ _ J A H) as (added & ms & X & Y & _ & Z). exists added, ms.
  split; [eapply Permutation_trans; eassumption|]. split; [rewrite <- Y; exact PM|]. intros x I. rewrite <- C. apply Z, I.
Qed.
(** Two programs that can be assembled make one exactly if they export no name in common and have no byte in common, and then the
    result is the two results together. *)
Theorem C73_join : forall fuel (sk : sink) files more ws a wq b, (forall ws1 ws2 w, sk ws1 w = sk ws2 w) ->
  assemble fuel sk files = (ws, Ok a) -> assemble fuel sk more = (wq, Ok b) ->
  ((exists ws' c, assemble fuel sk (files ++ more) = (ws', Ok c)) <->
   (forall id, In id (flat_map exports (as_mods a)) -> ~ In id (flat_map exports (as_mods b))) /\
   (forall x, assembler_contains a x = true -> assembler_contains b x = false)) /\
  (forall ws' c, assemble fuel sk (files ++ more) = (ws', Ok c) -> Permutation ws' (ws ++ wq) /\ as_mods c = as_mods a ++ as_mods b /\
    forall x, assembler_contains c x = assembler_contains a x || assembler_contains b x).
Proof. exact join_judged. Qed.
(** All that files take from the others is the values of the names those export: with other files in their place that export the
    same names with the same values, the modules are the same, and so are the writes of their bytes. *)
Theorem C73_interface : forall fuel (sk : sink) others others' files ws a ws' a' mo mf mo' mf', (forall ws1 ws2 w, sk ws1 w = sk ws2 w) ->
  assemble fuel sk (others ++ files) = (ws, Ok a) -> assemble fuel sk (others' ++ files) = (ws', Ok a') ->
  as_mods a = mo ++ mf -> List.length mo = List.length others -> as_mods a' = mo' ++ mf' -> List.length mo' = List.length others' ->
  (forall id, In id (flat_map exports mo) <-> In id (flat_map exports mo')) -> (forall id v, tells mo id v <-> tells mo' id v) ->
  mf = mf' /\ forall w m x, In w ws -> In m mf -> In x (touched w) -> covers (md_owned m) x -> In w ws'.
Proof. exact interface_judged. Qed.

(** A library, a program using it, a program on its own, and one in the way. *)
Definition lib := [".module lib"; "k: .equ 7"; ".org $8000"; ".entry m8x8"; "f: LDA #k"; "RTL"].
Definition lib2 := [".module lib"; "f: .equ $8000"; "k: .equ 3 + 4"].
Definition user := [".module user"; ".org $9000"; ".entry m8x8"; "LDA #lib::k"; "JSL @lib::f"; "RTL"].
Definition other := [".module other"; ".org $a000"; ".db 1, 2"].
Definition clash := [".module clash"; ".org $8001"; ".db 1"].
Definition same_name := [".module lib"; "k: .equ 9"].
Example C73_case :
  let any : sink := fun _ _ => Ok tt in
  let w1 := [(32768, [169; 7]); (32770, [107])] in
  let w2 := [(36864, [169; 7]); (36866, [34; 0; 128; 0]); (36870, [107])] in
  fst (assemble 99 any [lib]) = w1 /\ fst (assemble 99 any [lib; user]) = w1 ++ w2 /\ fst (assemble 99 any [user; lib]) = w2 ++ w1 /\
  (let* a := snd (assemble 99 any [lib]) in let* b := snd (assemble 99 any [lib; user]) in
   Ok (assembler_contains a 32769, assembler_contains b 32769, assembler_contains a 36864, assembler_contains b 36864, flat_map exports (as_mods a))) =
    Ok (true, true, false, true, [FullId (Some "lib") "k"; FullId (Some "lib") "f"]) /\
  fst (assemble 99 any [lib; other]) = w1 ++ [(40960, [1; 2])] /\ fst (assemble 99 any [other]) = [(40960, [1; 2])] /\
  (let* a := snd (assemble 99 any [other]) in Ok (flat_map exports (as_mods a))) = Ok [] /\
  fst (assemble 99 any [clash]) = [(32769, [1])] /\ snd (assemble 99 any [lib; clash]) = Err E_overlap /\
  snd (assemble 99 any [lib; same_name]) = Err E_duplicate /\
  fst (assemble 99 any [lib2; user]) = w2 /\
  (let* a := snd (assemble 99 any [lib2; user]) in let* b := snd (assemble 99 any [lib; user]) in
   Ok (map (fun m => value_for_name m (FullId (Some "lib") "f")) (as_mods a), map (fun m => value_for_name m (FullId (Some "lib") "f")) (as_mods b))) =
    Ok ([Ok 32768; Err E_logic], [Ok 32768; Err E_logic]).
Proof. vm_compute. repeat (split; [reflexivity|]). reflexivity. Qed.
Print Assumptions C73_link.
Print Assumptions C73_anywhere.
Print Assumptions C73_join.
Print Assumptions C73_interface.

(** Proofs about the errors of an image. *)
From Verif Require Import BaseProofs ModelNumeric ModelAddress ModelExpr ModelMap ModelRom ModelTools ModelLocation ModelRomText
  SpecArith ArithProofs SpecRom RomProofs SpecRomText.
Open Scope string_scope.
Open Scope list_scope.
Open Scope Z_scope.

(** ** The same results. *)
Lemma forget_bind : forall A B (r : tres A) (f : A -> tres B), forget (tbind r f) = bind (forget r) (fun a => forget (f a)).
Proof. intros A B [a|e|u] f; reflexivity. Qed.
Lemma forget_set : forall A l (r : tres A), forget (tset_location l r) = forget r.
Proof. intros A l [a|e|u]; reflexivity. Qed.
Lemma forget_snes : forall a m, forget (t_snes_to_rom a m) = snes_to_rom a m.
Proof.
  intros a m. unfold t_snes_to_rom, snes_to_rom. destruct (_ || _); [reflexivity|]. destruct (_ && _); [reflexivity|].
  destruct m; [destruct (_ <? _)| |]; reflexivity.
Qed.
Lemma forget_loop : forall path r a n i, forget (t_read_loop path r a i n) = read_loop r a i n.
Proof.
  intros path r a n. induction n as [|n IH]; intros i; [reflexivity|]. cbn [t_read_loop read_loop]. rewrite forget_bind, forget_set, forget_snes.
  destruct (snes_to_rom _ _) as [off|e|u|]; [|reflexivity..]. cbn [bind]. destruct (znth _ off) as [b|]; [|reflexivity].
  rewrite forget_bind, IH. reflexivity.
Qed.
Lemma forget_read : forall path r a len, forget (t_rom_read path r a len) = rom_read r a len.
Proof.
  intros path r a len. unfold t_rom_read, rom_read. destruct (len =? 0); [reflexivity|]. destruct (len <? 0); [reflexivity|].
  rewrite forget_bind, forget_set, forget_snes. destruct (snes_to_rom a _) as [first|e|u|]; [|reflexivity..]. cbn [bind].
  rewrite forget_bind, forget_set, forget_snes. destruct (snes_to_rom _ _) as [last|e|u|]; [|reflexivity..]. cbn [bind].
  destruct (first <? last); [destruct (_ <=? last); reflexivity|apply forget_loop].
Qed.
Lemma forget_difference : forall a data actual i, forget (t_first_difference a i data actual) = first_difference data actual.
Proof.
  intros a data. induction data as [|d data IH]; intros actual i; [reflexivity|]. destruct actual as [|x actual]; [reflexivity|].
  cbn [t_first_difference first_difference]. destruct (d =? x); [apply IH|reflexivity].
Qed.
Lemma forget_identity : forall path r a data, forget (t_identity_write path r a data) = identity_write r a data.
Proof.
  intros path r a data. unfold t_identity_write, identity_write. rewrite forget_bind, forget_read. destruct (rom_read r a (zlen data)) as [l|e|u|]; [|reflexivity..].
  cbn [bind]. destruct (zlist_eqb l data); [reflexivity|apply forget_difference].
Qed.
Lemma forget_overwrite : forall m a data img i, let (img', r) := t_overwrite_loop m img a i data in (img', forget r) = overwrite_loop m img a i data.
Proof.
  intros m a data. induction data as [|d data IH]; intros img i; [reflexivity|]. cbn [t_overwrite_loop overwrite_loop]. rewrite <- forget_snes.
  destruct (t_snes_to_rom (add_wrapped a i) m) as [off|e|u]; [|reflexivity..]. cbn [forget].
  destruct (zlen img <? off); [reflexivity|]. destruct (off =? zlen img); [reflexivity|]. apply IH.
Qed.

(** ** What they say. *)
Lemma snes_error : forall a m e, addr24 a -> t_snes_to_rom a m = TErr e -> re_kind e = E_rom_address /\ complaint m a (re_text e) /\ re_loc e = Loc "" (AtAddress a).
Proof.
  intros a m e A H. destruct (addr24_parts a A) as (B & O & _). unfold t_snes_to_rom in H. rewrite addr_low_spec, addr_bank_spec in H.
  destruct ((bank_of a =? 126) || (bank_of a =? 127)) eqn:W; [injection H as <-; split; [reflexivity|split; [|reflexivity]]; apply co_wram; lia|].
  destruct ((offset_of a <? 32768) && _) eqn:S; [injection H as <-; split; [reflexivity|split; [|reflexivity]]; apply co_system; change (2 ^ 15) with 32768; lia|].
  destruct m; [|discriminate..]. destruct (offset_of a <? 32768) eqn:L; [|discriminate]. injection H as <-. split; [reflexivity|]. split; [|reflexivity].
  apply co_lorom; change (2 ^ 15) with 32768; lia.
Qed.
Lemma snes_never_ub : forall a m u, t_snes_to_rom a m <> TUB u.
Proof. intros a m u. unfold t_snes_to_rom. destruct (_ || _); [discriminate|]. destruct (_ && _); [discriminate|]. destruct m; [destruct (_ <? _)| |]; discriminate. Qed.
Lemma wrapped24 : forall a d, addr24 a -> addr24 (add_wrapped a d).
Proof.
  intros a d A. destruct (offset_add_wrapped a d A) as [O B]. destruct (addr24_parts a A) as (B0 & _ & _).
  rewrite add_wrapped_spec by exact A. unfold same_bank_plus. rewrite add_wrapped_spec in O by exact A. unfold addr24. change (2 ^ 24) with 16777216. change (2 ^ 16) with 65536. lia.
Qed.
Lemma located_snes : forall path r a i e, addr24 a -> path <> "" -> tset_location (at_path path) (t_snes_to_rom (add_wrapped a i) (rom_mapping r)) = TErr e -> blames path r a e i.
Proof.
  intros path r a i e A P H. destruct (t_snes_to_rom (add_wrapped a i) (rom_mapping r)) as [off|e0|u] eqn:S; cbn [tset_location] in H; [discriminate| |discriminate].
  injection H as <-. apply snes_error in S; [|apply wrapped24, A]. destruct S as (K & C & L). rewrite add_wrapped_spec in C, L by exact A. unfold blames. cbn [re_kind re_text re_loc]. rewrite L.
  unfold loc_update, at_path. cbn [loc_path loc_offset]. destruct (String.eqb_spec path "") as [E|_]; [contradiction|]. split; [reflexivity|left; auto].
Qed.
Lemma set_ok : forall A l (r : tres A) a, tset_location l r = TOk a -> r = TOk a.
Proof. intros A l [b|e|u] a H; cbn in H; congruence. Qed.
Lemma loop_error : forall path r a, addr24 a -> path <> "" -> forall n i e, t_read_loop path r a i n = TErr e -> exists k, i <= k < i + Z.of_nat n /\ blames path r a e k.
Proof.
  intros path r a A P n. induction n as [|n IH]; intros i e H; cbn [t_read_loop] in H; [discriminate|].
  destruct (tset_location (at_path path) (t_snes_to_rom (add_wrapped a i) (rom_mapping r))) as [off|e0|u] eqn:S; cbn [tbind] in H; [| |discriminate].
  - apply set_ok in S. pose proof (forget_snes (add_wrapped a i) (rom_mapping r)) as F. rewrite S in F. cbn [forget] in F. rewrite add_wrapped_spec in F by exact A.
    destruct (znth (rom_data r) off) as [b|] eqn:Z.
    + destruct (t_read_loop path r a (i + 1) n) as [l|e1|u] eqn:R; cbn [tbind] in H; [discriminate| |discriminate]. injection H as ->.
      destruct (IH _ _ R) as (k & K & B). exists k. split; [lia|exact B].
    + injection H as <-. exists i. split; [lia|]. rewrite add_wrapped_spec by exact A. unfold blames. cbn [re_kind re_text re_loc].
      unfold loc_update, at_path, at_address, no_location. cbn [loc_path loc_offset]. rewrite !String.eqb_refl. destruct (String.eqb_spec path "") as [E|_]; [contradiction|].
      split; [reflexivity|]. right. split; [reflexivity|]. split; [reflexivity|]. exists off. rewrite <- znth_nth_byte. auto.
  - injection H as <-. exists i. split; [lia|]. exact (located_snes _ _ _ _ _ A P S).
Qed.
Lemma read_error : forall path r a len e, addr24 a -> path <> "" -> 0 < len <= 65536 -> t_rom_read path r a len = TErr e ->
  (exists i, 0 <= i < len /\ blames path r a e i) \/
  (exists first, snes_to_rom a (rom_mapping r) = Ok first /\ zlen (rom_data r) <= first + (len - 1) /\
     snes_to_rom (same_bank_plus a (len - 1)) (rom_mapping r) = Ok (first + (len - 1)) /\ 1 < len /\
     re_kind e = E_rom_range /\ re_text e = "Address past end of ROM" /\ re_loc e = Loc path (AtLine first)).
Proof.
  intros path r a len e A P L H. unfold t_rom_read in H. destruct (Z.eqb_spec len 0); [lia|]. destruct (Z.ltb_spec len 0); [lia|].
  destruct (tset_location (at_path path) (t_snes_to_rom a (rom_mapping r))) as [first|e0|u] eqn:S; cbn [tbind] in H; [| |discriminate].
  2:{ injection H as <-. left. exists 0. split; [lia|]. replace a with (add_wrapped a 0) in S.
      - exact (located_snes _ _ _ _ _ A P S).
      - rewrite add_wrapped_spec by exact A. unfold same_bank_plus. destruct (addr24_parts a A) as (B & O & E). change (2 ^ 16) with 65536. rewrite Z.add_0_r, Z.mod_small by exact O. lia. }
  destruct (tset_location (at_path path) (t_snes_to_rom (add_wrapped a (len - 1)) (rom_mapping r))) as [last|e0|u] eqn:S2; cbn [tbind] in H; [| |discriminate].
  2:{ injection H as <-. left. exists (len - 1). split; [lia|]. exact (located_snes _ _ _ _ _ A P S2). }
  apply set_ok in S. apply set_ok in S2. pose proof (forget_snes a (rom_mapping r)) as F1. rewrite S in F1. pose proof (forget_snes (add_wrapped a (len - 1)) (rom_mapping r)) as F2. rewrite S2 in F2.
  cbn [forget] in F1, F2. symmetry in F1, F2. destruct (Z.ltb_spec first last) as [LT|GE].
  - destruct (contiguous a (rom_mapping r) len first last A L F1 F2 LT) as [EL _]. destruct (Z.leb_spec (zlen (rom_data r)) last) as [LE|_]; [|discriminate].
    injection H as <-. right. exists first. rewrite add_wrapped_spec in F2 by exact A. subst last. split; [exact F1|]. split; [exact LE|]. split; [exact F2|]. split; [lia|]. split; [reflexivity|]. split; [reflexivity|].
    cbn [re_loc]. unfold loc_update, at_path, no_location. cbn [loc_path loc_offset]. rewrite !String.eqb_refl. destruct (String.eqb_spec path "") as [E|_]; [contradiction|]. reflexivity.
  - destruct (loop_error _ _ _ A P _ _ _ H) as (k & K & B). left. exists k. split; [lia|exact B].
Qed.
Lemma difference_error : forall a, addr24 a -> forall data actual i e, List.length data = List.length actual -> t_first_difference a i data actual = TErr e ->
  (data = actual /\ re_kind e = E_logic) \/
  exists k d x, nth_byte data k = Some d /\ nth_byte actual k = Some x /\ d <> x /\ (forall j, 0 <= j < k -> nth_byte data j = nth_byte actual j) /\
    e = RError E_mismatch ("Wrote 0x" ++ hex_fixed 2 d ++ " to " ++ address_to_string (same_bank_plus a (i + k)) ++ ", expected 0x" ++ hex_fixed 2 x)%string no_location.
Proof.
  intros a A data. induction data as [|d data IH]; intros [|x actual] i e L H; try discriminate; cbn [t_first_difference] in H.
  - left. injection H as <-. split; reflexivity.
  - injection L as L. destruct (Z.eqb_spec d x) as [->|N].
    + destruct (IH _ _ _ L H) as [[-> K]|(k & d' & x' & D & X & N & J & E)]; [left; auto|]. right. exists (k + 1), d', x'.
      pose proof (nth_byte_some _ _ _ D) as RK. rewrite !nth_byte_S by lia. split; [exact D|]. split; [exact X|]. split; [exact N|]. split; [|rewrite E; replace (i + (k + 1)) with (i + 1 + k) by lia; reflexivity].
      intros j R. destruct (Z.eq_dec j 0) as [->|NZ]; [rewrite !nth_byte_0; reflexivity|]. replace j with ((j - 1) + 1) by lia. rewrite !nth_byte_S by lia. apply J. lia.
    + right. exists 0, d, x. rewrite !nth_byte_0. split; [reflexivity|]. split; [reflexivity|]. split; [exact N|]. split; [lia|]. injection H as <-. rewrite Z.add_0_r, add_wrapped_spec by exact A. reflexivity.
Qed.
Lemma identity_error : forall path r a data e, addr24 a -> Z.of_nat (List.length data) <= 2 ^ 16 -> t_identity_write path r a data = TErr e -> re_kind e = E_mismatch ->
  exists k d x, nth_byte data k = Some d /\ in_rom r (same_bank_plus a k) x /\ d <> x /\
    (forall j b, 0 <= j < k -> nth_byte data j = Some b -> in_rom r (same_bank_plus a j) b) /\
    rerror_to_string e = ("Wrote 0x" ++ hex_fixed 2 d ++ " to " ++ address_to_string (same_bank_plus a k) ++ ", expected 0x" ++ hex_fixed 2 x)%string.
Proof.
  intros path r a data e A L H K. unfold t_identity_write in H. pose proof (forget_read path r a (zlen data)) as F.
  destruct (t_rom_read path r a (zlen data)) as [l|e0|u] eqn:R; cbn [tbind] in H; [| |discriminate].
  - cbn [forget] in F. symmetry in F. assert (LZ : 0 <= zlen data <= 2 ^ 16) by (unfold zlen; lia). apply (proj1 (rom_read_exact r a (zlen data) A LZ)) in F. destruct F as [LL IN].
    destruct (zlist_eqb l data) eqn:Z; [discriminate|]. destruct (difference_error a A data l 0 e) as [[-> _]|(k & d & x & D & X & N & J & E)]; [unfold zlen in LL; lia|exact H| |].
    + assert (zlist_eqb l l = true) by (apply zlist_eqb_eq; reflexivity). congruence.
    + exists k, d, x. split; [exact D|]. split; [apply IN, X|]. split; [exact N|]. split; [intros j b RJ B; apply IN; rewrite <- (J j RJ); exact B|]. rewrite E. reflexivity.
  - injection H as ->. cbn [forget] in F. exfalso. destruct (Z.eq_dec (zlen data) 0) as [Z0|Z0].
    + unfold t_rom_read in R. rewrite Z0 in R. discriminate R.
    + unfold t_rom_read in R. unfold zlen in Z0. destruct (Z.eqb_spec (zlen data) 0) as [|_]; [unfold zlen in *; lia|]. destruct (Z.ltb_spec (zlen data) 0) as [|_]; [unfold zlen in *; lia|].
      assert (SN : forall b, forall e1, tset_location (at_path path) (t_snes_to_rom b (rom_mapping r)) = TErr e1 -> re_kind e1 = E_rom_address).
      { intros b e1. unfold t_snes_to_rom. destruct (_ || _); [intros X; injection X as <-; reflexivity|]. destruct (_ && _); [intros X; injection X as <-; reflexivity|].
        destruct (rom_mapping r); [destruct (_ <? _)| |]; intros X; try discriminate; injection X as <-; reflexivity. }
      assert (LP : forall n i e1, t_read_loop path r a i n = TErr e1 -> re_kind e1 <> E_mismatch).
      { intros n. induction n as [|n IH]; intros i e1 X; cbn [t_read_loop] in X; [discriminate|]. destruct (tset_location (at_path path) (t_snes_to_rom (add_wrapped a i) (rom_mapping r))) as [o|e2|u] eqn:S; cbn [tbind] in X; [| |discriminate].
        - destruct (znth _ o); [|injection X as <-; discriminate]. destruct (t_read_loop path r a (i + 1) n) eqn:RR; cbn [tbind] in X; [discriminate| |discriminate]. injection X as <-. exact (IH _ _ RR).
        - injection X as <-. rewrite (SN _ _ S). discriminate. }
      destruct (tset_location (at_path path) (t_snes_to_rom a (rom_mapping r))) as [o|e2|u] eqn:S; cbn [tbind] in R; [| |discriminate]; [|injection R as ->; rewrite (SN _ _ S) in K; discriminate].
      destruct (tset_location (at_path path) (t_snes_to_rom (add_wrapped a (zlen data - 1)) (rom_mapping r))) as [o2|e2|u] eqn:S2; cbn [tbind] in R; [| |discriminate]; [|injection R as ->; rewrite (SN _ _ S2) in K; discriminate].
      destruct (o <? o2); [destruct (_ <=? o2); [injection R as <-; discriminate K|discriminate]|]. exact (LP _ _ _ R K).
Qed.
Lemma line_replaces : forall path n m a e u, path <> "" -> addr24 a -> t_snes_to_rom a m = TErr e ->
  tset_location (Loc path (AtLine n)) (@TErr Z e) = TErr u -> rerror_to_string u = (path ++ ":" ++ dec_string n ++ ": " ++ re_text e)%string.
Proof.
  intros path n m a e u P A H E. apply snes_error in H; [|exact A]. destruct H as (_ & _ & L). cbn [tset_location] in E. injection E as <-.
  unfold rerror_to_string, error_to_string, loc_to_string. cbn [re_loc re_text]. rewrite L. unfold loc_update. cbn [loc_path loc_offset].
  destruct (String.eqb_spec path "") as [|_]; [contradiction|]. cbn [loc_path loc_offset]. destruct (String.eqb_spec path "") as [|_]; [contradiction|].
  destruct (String.eqb_spec (path ++ ":" ++ dec_string n)%string "") as [X|_]; [destruct path; [contradiction|discriminate X]|].
  assert (AP : forall a b c : string, ((a ++ b) ++ c)%string = (a ++ (b ++ c))%string) by (intros x b c; induction x as [|ch x IH]; [reflexivity|cbn; rewrite IH; reflexivity]).
  rewrite !AP. reflexivity.
Qed.

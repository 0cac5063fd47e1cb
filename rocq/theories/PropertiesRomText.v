(** Properties of the errors of an image. *)
From Verif Require Import BaseProofs ModelNumeric ModelAddress ModelExpr ModelMap ModelRom ModelTools ModelLocation ModelRomText
  SpecArith SpecRom SpecRomText RomTextProofs.
Open Scope string_scope.
Open Scope list_scope.
Open Scope Z_scope.

(** C74.  With texts and locations the functions are those of the rest of the model. *)
Theorem C74_same : (forall a m, forget (t_snes_to_rom a m) = snes_to_rom a m) /\
  (forall path r a len, forget (t_rom_read path r a len) = rom_read r a len) /\
  (forall path r a data, forget (t_identity_write path r a data) = identity_write r a data) /\
  (forall m a data img i, let (img', r) := t_overwrite_loop m img a i data in (img', forget r) = overwrite_loop m img a i data).
Proof. exact (conj forget_snes (conj forget_read (conj forget_identity forget_overwrite))). Qed.
(** A read that fails names the image and one of the addresses asked for that cannot be read, and says why; but a read in one
    piece that runs past the end names the offset of its first byte in the image, as if it were the number of a line. *)
Theorem C74_read : forall path r a len e, addr24 a -> path <> "" -> 0 < len <= 65536 -> t_rom_read path r a len = TErr e ->
  (exists i, 0 <= i < len /\ blames path r a e i) \/
  (exists first, snes_to_rom a (rom_mapping r) = Ok first /\ zlen (rom_data r) <= first + (len - 1) /\
     snes_to_rom (same_bank_plus a (len - 1)) (rom_mapping r) = Ok (first + (len - 1)) /\ 1 < len /\
     re_kind e = E_rom_range /\ re_text e = "Address past end of ROM" /\ re_loc e = Loc path (AtLine first)).
Proof. exact read_error. Qed.
(** So it is not the case that the error always names an address. *)
Theorem C74_past_end_refuted : ~ forall path r a len e, addr24 a -> path <> "" -> 0 < len <= 65536 -> t_rom_read path r a len = TErr e ->
  exists i, 0 <= i < len /\ re_loc e = Loc path (AtAddress (same_bank_plus a i)).
Proof.
  intros H. destruct (H "game.sfc" (Rom HiRom [1; 2; 3]) 0xc00001 3 (RError E_rom_range "Address past end of ROM" (Loc "game.sfc" (AtLine 1)))) as (i & _ & E);
    [unfold addr24; lia|discriminate|lia|vm_compute; reflexivity|discriminate E].
Qed.
(** Comparing with an image: the error names the first byte that differs, what was written and what is there. *)
Theorem C74_mismatch : forall path r a data e, addr24 a -> Z.of_nat (List.length data) <= 2 ^ 16 -> t_identity_write path r a data = TErr e -> re_kind e = E_mismatch ->
  exists k d x, nth_byte data k = Some d /\ in_rom r (same_bank_plus a k) x /\ d <> x /\
    (forall j b, 0 <= j < k -> nth_byte data j = Some b -> in_rom r (same_bank_plus a j) b) /\
    rerror_to_string e = ("Wrote 0x" ++ hex_fixed 2 d ++ " to " ++ address_to_string (same_bank_plus a k) ++ ", expected 0x" ++ hex_fixed 2 x)%string.
Proof. exact identity_error. Qed.
(** Where the assembler passes such an error on, the line of the statement replaces the address. *)
Theorem C74_line : forall path n m a e u, path <> "" -> addr24 a -> t_snes_to_rom a m = TErr e ->
  tset_location (Loc path (AtLine n)) (@TErr Z e) = TErr u -> rerror_to_string u = (path ++ ":" ++ dec_string n ++ ": " ++ re_text e)%string.
Proof. exact line_replaces. Qed.
Example C74_case :
  let said {A} (r : tres A) := match r with TErr e => rerror_to_string e | _ => "" end in
  said (t_rom_read "game.sfc" (Rom LoRom [1; 2; 3]) 0x7e0010 2) = "game.sfc:0x7e0010: Address in WRAM" /\
  said (t_rom_read "game.sfc" (Rom LoRom [1; 2; 3]) 0x00ffff 2) = "game.sfc:0x000000: Address in non-CART memory" /\
  said (t_rom_read "game.sfc" (Rom LoRom [1; 2; 3]) 0x400000 1) = "game.sfc:0x400000: Invalid LoRom ROM address" /\
  said (t_rom_read "game.sfc" (Rom HiRom [1; 2; 3]) 0xc00010 1) = "game.sfc:0xc00010: Address past end of ROM" /\
  said (t_rom_read "game.sfc" (Rom HiRom [1; 2; 3]) 0xc00001 3) = "game.sfc:1: Address past end of ROM" /\
  said (t_rom_read "game.sfc" (Rom LoRom [1; 2; 3]) 0x818000 3) = "game.sfc:32768: Address past end of ROM" /\
  said (t_identity_write "game.sfc" (Rom HiRom [1; 2; 3]) 0xc00000 [1; 255; 3]) = "Wrote 0xff to $c00001, expected 0x02" /\
  said (tset_location (Loc "main.asm" (AtLine 7)) (t_snes_to_rom 0x7e0010 LoRom)) = "main.asm:7: Address in WRAM" /\
  said (snd (t_overwrite_loop HiRom [1; 2] 0xc00001 0 [7; 8; 9])) = "" /\
  said (snd (t_overwrite_loop HiRom [1; 2] 0xc00003 0 [7; 8; 9])) = "Attempt to write at $c00003, past end of file" /\
  said (snd (t_overwrite_loop HiRom [1; 2] 0x7e0000 0 [7])) = "Address in WRAM".
Proof. vm_compute. repeat (split; [reflexivity|]). reflexivity. Qed.
Print Assumptions C74_same.
Print Assumptions C74_read.
Print Assumptions C74_past_end_refuted.
Print Assumptions C74_mismatch.
Print Assumptions C74_line.

(** The errors of an image as they are reported: their texts and their locations.  Transcribes nsasm/rom.cc once more, with
    the messages and every SetLocation. *)
From Verif Require Import Base ModelNumeric ModelAddress ModelExpr ModelMap ModelRom ModelTools ModelLocation.
Open Scope string_scope.
Open Scope list_scope.
Open Scope Z_scope.

(** nsasm/error.h:12-39: an error; [re_kind] is the code that stands for it elsewhere in the model. *)
Record rerror := RError { re_kind : err; re_text : string; re_loc : location }.
(** nsasm/error.cc:7-13. *)
Definition rerror_to_string (e : rerror) : string := error_to_string (re_loc e) (re_text e).

(** ErrorOr<T>, nsasm/error.h:41-83. *)
Inductive tres (A : Type) := TOk (a : A) | TErr (e : rerror) | TUB (u : ub).
Arguments TOk {A} a.
Arguments TErr {A} e.
Arguments TUB {A} u.

(** NSASM_RETURN_IF_ERROR, nsasm/error.h:87-93. *)
Definition tbind {A B} (r : tres A) (f : A -> tres B) : tres B :=
  match r with TOk a => f a | TErr e => TErr e | TUB u => TUB u end.
(** nsasm/error.h:18-21, 95-101. *)
Definition tset_location {A} (l : location) (r : tres A) : tres A :=
  match r with TErr e => TErr (RError (re_kind e) (re_text e) (loc_update (re_loc e) l)) | r => r end.

(** Error(text).SetLocation(location). *)
Definition error_at {A} (kind : err) (text : string) (l : location) : tres A := TErr (RError kind text (loc_update no_location l)).
(** nsasm/address.h:30. *)
Definition at_address (a : Z) : location := Loc "" (AtAddress a).
(** nsasm/location.h:15. *)
Definition at_path (path : string) : location := Loc path NoOffset.

(** nsasm/rom.cc:9-35. *)
Definition t_snes_to_rom (a : Z) (m : mapping) : tres Z :=
  let bank_address := addr_low a in
  let bank := addr_bank a in
  if (bank =? 0x7e) || (bank =? 0x7f) then error_at E_rom_address "Address in WRAM" (at_address a)
  else if (bank_address <? 0x8000)
          && (((0 <=? bank) && (bank <? 0x40)) || ((0x80 <=? bank) && (bank <? 0xc0)))
  then error_at E_rom_address "Address in non-CART memory" (at_address a)
  else match m with
  | LoRom =>
      if bank_address <? 0x8000 then error_at E_rom_address "Invalid LoRom ROM address" (at_address a)
      else TOk (Z.lor (Z.land bank_address 0x7fff) (Z.shiftl (Z.land bank 0x7f) 15))
  | HiRom => TOk (Z.lor bank_address (Z.shiftl (Z.land bank 0x3f) 16))
  | ExHiRom =>
      let result := Z.lor bank_address (Z.shiftl (Z.land bank 0x3f) 16) in
      TOk (if Z.land result 0x800000 =? 0 then Z.lor result 0x400000 else result)
  end.

(** nsasm/rom.cc:61-71, from index [i], [n] more bytes.  SetLocation with two locations: nsasm/error.h:25-29. *)
Fixpoint t_read_loop (path : string) (r : rom) (a i : Z) (n : nat) : tres (list Z) :=
  match n with
  | O => TOk []
  | S n' =>
      tbind (tset_location (at_path path) (t_snes_to_rom (add_wrapped a i) (rom_mapping r))) (fun off =>
      match znth (rom_data r) off with
      | None => error_at E_rom_range "Address past end of ROM" (loc_update (at_path path) (at_address (add_wrapped a i)))
      | Some b => tbind (t_read_loop path r a (i + 1) n') (fun rest => TOk (b :: rest))
      end)
  end.

(** nsasm/rom.cc:37-73.  On line 55 the second argument of SetLocation is the size_t *first_address: the conversion to
    Location that takes it is the one from int, a line number (nsasm/location.h:16). *)
Definition t_rom_read (path : string) (r : rom) (a len : Z) : tres (list Z) :=
  if len =? 0 then TOk []
  else if len <? 0 then TErr (RError E_logic (String.append "LOGIC ERROR: Negative read size " (dec_string len)) no_location)
  else
    tbind (tset_location (at_path path) (t_snes_to_rom a (rom_mapping r))) (fun first =>
    tbind (tset_location (at_path path) (t_snes_to_rom (add_wrapped a (len - 1)) (rom_mapping r))) (fun last =>
    if first <? last then
      if zlen (rom_data r) <=? last
      then error_at E_rom_range "Address past end of ROM" (loc_update (at_path path) (Loc "" (AtLine first)))
      else TOk (firstn (Z.to_nat (last + 1 - first)) (skipn (Z.to_nat first) (rom_data r)))
    else t_read_loop path r a 0 (Z.to_nat len))).

(** nsasm/rom.cc:160-167, from index [i]. *)
Fixpoint t_first_difference (a i : Z) (data actual : list Z) : tres unit :=
  match data with
  | [] => TErr (RError E_logic "logic error: comparisons inconsistent??" no_location)
  | d :: data' =>
      match actual with
      | [] => TUB UB_oob
      | x :: actual' =>
          if d =? x then t_first_difference a (i + 1) data' actual'
          else TErr (RError E_mismatch
            ("Wrote 0x" ++ hex_fixed 2 d ++ " to " ++ address_to_string (add_wrapped a i) ++ ", expected 0x" ++ hex_fixed 2 x)%string no_location)
      end
  end.
(** nsasm/rom.cc:151-168. *)
Definition t_identity_write (path : string) (r : rom) (a : Z) (data : list Z) : tres unit :=
  tbind (t_rom_read path r a (zlen data)) (fun actual =>
  if zlist_eqb actual data then TOk tt else t_first_difference a 0 data actual).

(** nsasm/rom.cc:170-185, from index [i]. *)
Fixpoint t_overwrite_loop (m : mapping) (img : list Z) (a i : Z) (data : list Z) : list Z * tres unit :=
  match data with
  | [] => (img, TOk tt)
  | d :: data' =>
      match t_snes_to_rom (add_wrapped a i) m with
      | TOk idx =>
          if zlen img <? idx
          then (img, TErr (RError E_sink ("Attempt to write at " ++ address_to_string (add_wrapped a i) ++ ", past end of file")%string no_location))
          else if idx =? zlen img then (img, TUB UB_oob)
          else t_overwrite_loop m (zset idx d img) a (i + 1) data'
      | TErr e => (img, TErr e)
      | TUB u => (img, TUB u)
      end
  end.

(** RomIdentityTest as the output of the assembler (util/quick_assemble.cc:36-43), its errors with their locations. *)
Definition image_sink (path : string) (r : rom) : lsink := fun _ w =>
  match t_identity_write path r (fst w) (snd w) with TOk u => LOk u | TErr e => LErr (re_kind e) (re_loc e) | TUB u => LUB u end.

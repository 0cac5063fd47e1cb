(** Cartridge images.  Transcribes nsasm/rom.{h,cc} (except file access) and
    nsasm/memory.{h,cc}. *)
From Verif Require Import Base ModelNumeric ModelAddress ModelMap.

(** nsasm/rom.h:13-17. *)
Inductive mapping := LoRom | HiRom | ExHiRom.

(** nsasm/rom.cc:9-35. *)
Definition snes_to_rom (a : Z) (m : mapping) : res Z :=
  let bank_address := addr_low a in
  let bank := addr_bank a in
  if (bank =? 0x7e) || (bank =? 0x7f) then Err E_rom_address
  else if (bank_address <? 0x8000)
          && (((0 <=? bank) && (bank <? 0x40)) || ((0x80 <=? bank) && (bank <? 0xc0)))
  then Err E_rom_address
  else match m with
  | LoRom =>
      if bank_address <? 0x8000 then Err E_rom_address
      else Ok (Z.lor (Z.land bank_address 0x7fff) (Z.shiftl (Z.land bank 0x7f) 15))
  | HiRom => Ok (Z.lor bank_address (Z.shiftl (Z.land bank 0x3f) 16))
  | ExHiRom =>
      let result := Z.lor bank_address (Z.shiftl (Z.land bank 0x3f) 16) in
      Ok (if Z.land result 0x800000 =? 0 then Z.lor result 0x400000 else result)
  end.

(** nsasm/rom.h:32-56 (path_ and header_ omitted). *)
Record rom := Rom { rom_mapping : mapping; rom_data : list Z }.

(** The byte-by-byte branch of Read, nsasm/rom.cc:61-71, from index [i], [n] more bytes. *)
Fixpoint read_loop (r : rom) (a : Z) (i : Z) (n : nat) : res (list Z) :=
  match n with
  | O => Ok []
  | S n' =>
      let* off := snes_to_rom (add_wrapped a i) (rom_mapping r) in
      match znth (rom_data r) off with
      | None => Err E_rom_range
      | Some b => let* rest := read_loop r a (i + 1) n' in Ok (b :: rest)
      end
  end.

(** nsasm/rom.cc:37-73. *)
Definition rom_read (r : rom) (a len : Z) : res (list Z) :=
  if len =? 0 then Ok []
  else if len <? 0 then Err E_logic
  else
    let* first := snes_to_rom a (rom_mapping r) in
    let* last := snes_to_rom (add_wrapped a (len - 1)) (rom_mapping r) in
    if first <? last then
      if zlen (rom_data r) <=? last then Err E_rom_range
      else Ok (firstn (Z.to_nat (last + 1 - first)) (skipn (Z.to_nat first) (rom_data r)))
    else read_loop r a 0 (Z.to_nat len).

(** nsasm/memory.h:13-33: an input source is its Read function. *)
Definition source := Z -> Z -> res (list Z).

(** read[i] on a vector. *)
Definition byte_at (l : list Z) (i : Z) : res Z :=
  match znth l i with Some b => Ok b | None => UB UB_oob end.

(** nsasm/memory.cc:7-11. *)
Definition read_byte (s : source) (a : Z) : res Z := let* l := s a 1 in byte_at l 0.
(** nsasm/memory.cc:13-17. *)
Definition read_word (s : source) (a : Z) : res Z :=
  let* l := s a 2 in
  let* b0 := byte_at l 0 in
  let* b1 := byte_at l 1 in
  Ok (b0 + b1 * 256).
(** nsasm/memory.cc:19-23. *)
Definition read_long (s : source) (a : Z) : res Z :=
  let* l := s a 3 in
  let* b0 := byte_at l 0 in
  let* b1 := byte_at l 1 in
  let* b2 := byte_at l 2 in
  Ok (b0 + b1 * 256 + b2 * 256 * 256).

(** Vector comparison. *)
Fixpoint zlist_eqb (a b : list Z) : bool :=
  match a, b with
  | [], [] => true
  | x :: a', y :: b' => (x =? y) && zlist_eqb a' b'
  | _, _ => false
  end.

(** nsasm/rom.cc:160-165: report the first difference; actual[i] may be out of range. *)
Fixpoint first_difference (data actual : list Z) : res unit :=
  match data with
  | [] => Err E_logic
  | d :: data' =>
      match actual with
      | [] => UB UB_oob
      | x :: actual' => if d =? x then first_difference data' actual' else Err E_mismatch
      end
  end.

(** nsasm/rom.cc:151-168. *)
Definition identity_write (r : rom) (a : Z) (data : list Z) : res unit :=
  let* actual := rom_read r a (zlen data) in
  if zlist_eqb actual data then Ok tt else first_difference data actual.

(** nsasm/rom.h:75-88. *)
Record overwriter := Overwriter { ov_mapping : mapping; ov_data : list Z }.

(** nsasm/rom.h:77-78: rom_ is initialised first, by moving from the parameter; the
    initialiser of data_ then dereferences the (now null) parameter. *)
Definition overwriter_create (r : rom) : res overwriter :=
  let moved_from : option rom := None in
  match moved_from with
  | Some r' => Ok (Overwriter (rom_mapping r) (rom_data r'))
  | None => UB UB_null
  end.

(** nsasm/rom.cc:170-185, from index [i].  The new contents are returned together with the
    outcome since bytes written before an error stay written. *)
Fixpoint overwrite_loop (m : mapping) (img : list Z) (a i : Z) (data : list Z)
  : list Z * res unit :=
  match data with
  | [] => (img, Ok tt)
  | d :: data' =>
      match snes_to_rom (add_wrapped a i) m with
      | Ok idx =>
          if zlen img <? idx then (img, Err E_sink)
          else if idx =? zlen img then (img, UB UB_oob)
          else overwrite_loop m (zset idx d img) a (i + 1) data'
      | Err e => (img, Err e)
      | UB u => (img, UB u)
      | OutOfFuel => (img, OutOfFuel)
      end
  end.
Definition overwrite_write (o : overwriter) (a : Z) (data : list Z) : overwriter * res unit :=
  let (img, r) := overwrite_loop (ov_mapping o) (ov_data o) a 0 data in
  (Overwriter (ov_mapping o) img, r).

(** nsasm/rom.cc:80-84, on the 0x30 bytes starting at [base]. *)
Definition check_snes_header (data : list Z) (base : Z) : res bool :=
  let* h2c := byte_at data (base + 0x2c) in
  let* h2d := byte_at data (base + 0x2d) in
  let* h2e := byte_at data (base + 0x2e) in
  let* h2f := byte_at data (base + 0x2f) in
  Ok ((Z.lxor h2c h2e =? 0xff) && (Z.lxor h2d h2f =? 0xff)).

(** nsasm/rom.cc:88-149, as a function of the contents of the file; the file operations
    themselves are assumed to succeed, and the file to be shorter than 2^31 bytes.
    &data[0] of an empty vector (line 126, a file of exactly 0x200 bytes) is undefined. *)
Definition load_rom (file : list Z) : res rom :=
  let size := zlen file in
  if size <=? 0 then Err E_rom_range
  else if negb (size mod 0x1000 =? 0) && negb (size mod 0x1000 =? 0x200) then Err E_rom_range
  else
    let data := if size mod 0x1000 =? 0x200 then skipn 0x200 file else file in
    let file_size := if size mod 0x1000 =? 0x200 then size - 0x200 else size in
    if file_size =? 0 then UB UB_oob
    else if file_size <? 0x10000 then Err E_rom_range
    else
      let* maybe_lorom := check_snes_header data 0x7fb0 in
      let* maybe_hirom := check_snes_header data 0xffb0 in
      if Bool.eqb maybe_lorom maybe_hirom then Err E_rom_range
      else if maybe_lorom then Ok (Rom LoRom data)
      else if file_size <? 0x400000 then Ok (Rom HiRom data)
      else Ok (Rom ExHiRom data).

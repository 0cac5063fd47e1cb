(** Mnemonics, suffixes and directive names.  Transcribes nsasm/mnemonic.h and
    nsasm/mnemonic.cc. *)
From Verif Require Import Base.
Open Scope string_scope.
Open Scope Z_scope.

(** nsasm/mnemonic.h:11-117 (enum Mnemonic, in declaration order). *)
Inductive mnemonic :=
  | M_adc | M_and | M_asl | M_bit | M_cld | M_cli | M_clv | M_cmp | M_cpx | M_cpy | M_dec
  | M_dex | M_dey | M_eor | M_inc | M_inx | M_iny | M_lda | M_ldx | M_ldy | M_lsr | M_mvn
  | M_mvp | M_nop | M_ora | M_pea | M_pei | M_per | M_pha | M_phb | M_phd | M_phk | M_phx
  | M_phy | M_pla | M_plb | M_pld | M_plx | M_ply | M_rol | M_ror | M_sbc | M_sed | M_sei
  | M_sta | M_stp | M_stx | M_sty | M_stz | M_tax | M_tay | M_tcd | M_tcs | M_tdc | M_trb
  | M_tsb | M_tsc | M_tsx | M_txa | M_txs | M_txy | M_tya | M_tyx | M_wai | M_wdm | M_xba
  | M_bcc | M_bcs | M_beq | M_bmi | M_bne | M_bpl | M_bra | M_brk | M_brl | M_bvc | M_bvs
  | M_cop | M_jmp | M_jsl | M_jsr | M_rti | M_rtl | M_rts | M_clc | M_php | M_plp | M_rep
  | M_sec | M_sep | M_xce | PM_add | PM_sub.

(** All enumerators in declaration order (nsasm/mnemonic.h:11-117). *)
Definition all_mnemonics : list mnemonic :=
  [M_adc; M_and; M_asl; M_bit; M_cld; M_cli; M_clv; M_cmp; M_cpx; M_cpy; M_dec; M_dex;
  M_dey; M_eor; M_inc; M_inx; M_iny; M_lda; M_ldx; M_ldy; M_lsr; M_mvn; M_mvp; M_nop;
  M_ora; M_pea; M_pei; M_per; M_pha; M_phb; M_phd; M_phk; M_phx; M_phy; M_pla; M_plb;
  M_pld; M_plx; M_ply; M_rol; M_ror; M_sbc; M_sed; M_sei; M_sta; M_stp; M_stx; M_sty;
  M_stz; M_tax; M_tay; M_tcd; M_tcs; M_tdc; M_trb; M_tsb; M_tsc; M_tsx; M_txa; M_txs;
  M_txy; M_tya; M_tyx; M_wai; M_wdm; M_xba; M_bcc; M_bcs; M_beq; M_bmi; M_bne; M_bpl;
  M_bra; M_brk; M_brl; M_bvc; M_bvs; M_cop; M_jmp; M_jsl; M_jsr; M_rti; M_rtl; M_rts;
  M_clc; M_php; M_plp; M_rep; M_sec; M_sep; M_xce; PM_add; PM_sub].

(** Enumerator values (declaration order, starting at 0), nsasm/mnemonic.h:11-117. *)
Definition mnem_index (m : mnemonic) : Z :=
  match m with
  | M_adc => 0 | M_and => 1 | M_asl => 2 | M_bit => 3 | M_cld => 4 | M_cli => 5
  | M_clv => 6 | M_cmp => 7 | M_cpx => 8 | M_cpy => 9 | M_dec => 10 | M_dex => 11
  | M_dey => 12 | M_eor => 13 | M_inc => 14 | M_inx => 15 | M_iny => 16 | M_lda => 17
  | M_ldx => 18 | M_ldy => 19 | M_lsr => 20 | M_mvn => 21 | M_mvp => 22 | M_nop => 23
  | M_ora => 24 | M_pea => 25 | M_pei => 26 | M_per => 27 | M_pha => 28 | M_phb => 29
  | M_phd => 30 | M_phk => 31 | M_phx => 32 | M_phy => 33 | M_pla => 34 | M_plb => 35
  | M_pld => 36 | M_plx => 37 | M_ply => 38 | M_rol => 39 | M_ror => 40 | M_sbc => 41
  | M_sed => 42 | M_sei => 43 | M_sta => 44 | M_stp => 45 | M_stx => 46 | M_sty => 47
  | M_stz => 48 | M_tax => 49 | M_tay => 50 | M_tcd => 51 | M_tcs => 52 | M_tdc => 53
  | M_trb => 54 | M_tsb => 55 | M_tsc => 56 | M_tsx => 57 | M_txa => 58 | M_txs => 59
  | M_txy => 60 | M_tya => 61 | M_tyx => 62 | M_wai => 63 | M_wdm => 64 | M_xba => 65
  | M_bcc => 66 | M_bcs => 67 | M_beq => 68 | M_bmi => 69 | M_bne => 70 | M_bpl => 71
  | M_bra => 72 | M_brk => 73 | M_brl => 74 | M_bvc => 75 | M_bvs => 76 | M_cop => 77
  | M_jmp => 78 | M_jsl => 79 | M_jsr => 80 | M_rti => 81 | M_rtl => 82 | M_rts => 83
  | M_clc => 84 | M_php => 85 | M_plp => 86 | M_rep => 87 | M_sec => 88 | M_sep => 89
  | M_xce => 90 | PM_add => 91 | PM_sub => 92
  end.

(** Enumerator comparison (built-in C++ operator==). *)
Definition mnem_eqb (a b : mnemonic) : bool := mnem_index a =? mnem_index b.

(** nsasm/mnemonic.cc:11-21. *)
Definition mnemonic_names : list string :=
  ["adc"; "and"; "asl"; "bit"; "cld"; "cli"; "clv"; "cmp"; "cpx"; "cpy"; "dec"; "dex";
  "dey"; "eor"; "inc"; "inx"; "iny"; "lda"; "ldx"; "ldy"; "lsr"; "mvn"; "mvp"; "nop";
  "ora"; "pea"; "pei"; "per"; "pha"; "phb"; "phd"; "phk"; "phx"; "phy"; "pla"; "plb";
  "pld"; "plx"; "ply"; "rol"; "ror"; "sbc"; "sed"; "sei"; "sta"; "stp"; "stx"; "sty";
  "stz"; "tax"; "tay"; "tcd"; "tcs"; "tdc"; "trb"; "tsb"; "tsc"; "tsx"; "txa"; "txs";
  "txy"; "tya"; "tyx"; "wai"; "wdm"; "xba"; "bcc"; "bcs"; "beq"; "bmi"; "bne"; "bpl";
  "bra"; "brk"; "brl"; "bvc"; "bvs"; "cop"; "jmp"; "jsl"; "jsr"; "rti"; "rtl"; "rts";
  "clc"; "php"; "plp"; "rep"; "sec"; "sep"; "xce"; "add"; "sub"].

(** nsasm/mnemonic.cc:32-37.  The range test can not fail for an enumerator. *)
Definition mnem_to_string (m : mnemonic) : string :=
  nth (Z.to_nat (mnem_index m)) mnemonic_names "".

(** nsasm/mnemonic.cc:54-79 (lookup table of ToMnemonic). *)
Definition mnemonic_table : list (string * mnemonic) :=
  [("adc", M_adc); ("and", M_and); ("asl", M_asl); ("bit", M_bit); ("cld", M_cld);
  ("cli", M_cli); ("clv", M_clv); ("cmp", M_cmp); ("cpx", M_cpx); ("cpy", M_cpy);
  ("dec", M_dec); ("dex", M_dex); ("dey", M_dey); ("eor", M_eor); ("inc", M_inc);
  ("inx", M_inx); ("iny", M_iny); ("lda", M_lda); ("ldx", M_ldx); ("ldy", M_ldy);
  ("lsr", M_lsr); ("mvn", M_mvn); ("mvp", M_mvp); ("nop", M_nop); ("ora", M_ora);
  ("pea", M_pea); ("pei", M_pei); ("per", M_per); ("pha", M_pha); ("phb", M_phb);
  ("phd", M_phd); ("phx", M_phx); ("phy", M_phy); ("phk", M_phk); ("pla", M_pla);
  ("plb", M_plb); ("pld", M_pld); ("plx", M_plx); ("ply", M_ply); ("rol", M_rol);
  ("ror", M_ror); ("sbc", M_sbc); ("sed", M_sed); ("sei", M_sei); ("sta", M_sta);
  ("stp", M_stp); ("stx", M_stx); ("sty", M_sty); ("stz", M_stz); ("tax", M_tax);
  ("tay", M_tay); ("tcd", M_tcd); ("tcs", M_tcs); ("tdc", M_tdc); ("trb", M_trb);
  ("tsb", M_tsb); ("tsc", M_tsc); ("tsx", M_tsx); ("txa", M_txa); ("txs", M_txs);
  ("txy", M_txy); ("tya", M_tya); ("tyx", M_tyx); ("wai", M_wai); ("wdm", M_wdm);
  ("xba", M_xba); ("bcc", M_bcc); ("bcs", M_bcs); ("beq", M_beq); ("bmi", M_bmi);
  ("bne", M_bne); ("bpl", M_bpl); ("bra", M_bra); ("brk", M_brk); ("brl", M_brl);
  ("bvc", M_bvc); ("bvs", M_bvs); ("cop", M_cop); ("jmp", M_jmp); ("jsl", M_jsl);
  ("jsr", M_jsr); ("rti", M_rti); ("rtl", M_rtl); ("rts", M_rts); ("clc", M_clc);
  ("php", M_php); ("plp", M_plp); ("rep", M_rep); ("sec", M_sec); ("sep", M_sep);
  ("xce", M_xce); ("add", PM_add); ("sub", PM_sub)].

(** Lookup in a hash map keyed by string, written as a literal initializer list.
    (For duplicated keys C++ keeps the first.) *)
Fixpoint assoc_string {A} (s : string) (l : list (string * A)) : option A :=
  match l with
  | [] => None
  | (k, v) :: l' => if String.eqb s k then Some v else assoc_string s l'
  end.

(** nsasm/mnemonic.cc:53-86. *)
Definition to_mnemonic (s : string) : option mnemonic :=
  assoc_string (str_lower s) mnemonic_table.

(** nsasm/mnemonic.h:127-131. *)
Inductive suffix := S_none | S_b | S_w.

(** Enumerator comparison. *)
Definition suffix_eqb (a b : suffix) : bool :=
  match a, b with
  | S_none, S_none | S_b, S_b | S_w, S_w => true
  | _, _ => false
  end.

(** nsasm/mnemonic.cc:39-44 with the table of line 23. *)
Definition suffix_to_string (s : suffix) : string :=
  match s with S_none => "" | S_b => ".b" | S_w => ".w" end.

(** nsasm/mnemonic.cc:88-97. *)
Definition to_suffix (s : string) : option suffix :=
  assoc_string (str_lower s) [(".b", S_b); (".w", S_w)].

(** nsasm/mnemonic.h:140-153. *)
Inductive directive_name :=
  | D_begin | D_db | D_dl | D_dw | D_end | D_entry | D_equ | D_halt | D_mode | D_module
  | D_org | D_remote.

(** Enumerator values, nsasm/mnemonic.h:140-153. *)
Definition dir_index (d : directive_name) : Z :=
  match d with
  | D_begin => 0 | D_db => 1 | D_dl => 2 | D_dw => 3 | D_end => 4 | D_entry => 5
  | D_equ => 6 | D_halt => 7 | D_mode => 8 | D_module => 9 | D_org => 10 | D_remote => 11
  end.

(** Enumerator comparison. *)
Definition dir_eqb (a b : directive_name) : bool := dir_index a =? dir_index b.

(** nsasm/mnemonic.cc:25-28. *)
Definition directive_names : list string :=
  [".BEGIN"; ".DB"; ".DL"; ".DW"; ".END"; ".ENTRY"; ".EQU"; ".HALT"; ".MODE"; ".MODULE";
  ".ORG"; ".REMOTE"].

(** nsasm/mnemonic.cc:46-51.  The upper bound tested is D_org, as in the source, so
    D_remote prints as the empty string. *)
Definition dir_to_string (d : directive_name) : string :=
  if (dir_index d <? dir_index D_begin) || (dir_index D_org <? dir_index d) then ""
  else nth (Z.to_nat (dir_index d)) directive_names "".

(** nsasm/mnemonic.cc:99-112. *)
Definition directive_table : list (string * directive_name) :=
  [(".BEGIN", D_begin); (".DB", D_db); (".DL", D_dl); (".DW", D_dw); (".END", D_end);
  (".ENTRY", D_entry); (".EQU", D_equ); (".HALT", D_halt); (".MODE", D_mode);
  (".MODULE", D_module); (".ORG", D_org); (".REMOTE", D_remote)].

(** nsasm/mnemonic.cc:99-112. *)
Definition to_directive_name (s : string) : option directive_name :=
  assoc_string (str_upper s) directive_table.

(** Properties C40 and C16: names. *)
From Verif Require Import Base ModelMnemonic ModelState SpecNames SpecFlags NameProofs.
Open Scope string_scope.
Open Scope Z_scope.

(** C40.  A string is read as mnemonic [m] exactly when it is [m]'s printed name in some
    letter case. *)
Theorem C40_mnemonic_names : forall s m,
  to_mnemonic s = Some m <-> same_name s (mnem_to_string m).
Proof. exact to_mnemonic_iff. Qed.
Example C40_mnemonic_names_ex :
  to_mnemonic "AdC" = Some M_adc /\ mnem_to_string M_adc = "adc" /\ to_mnemonic "adcx" = None.
Proof. repeat split; vm_compute; reflexivity. Qed.
Print Assumptions C40_mnemonic_names.

(** C40.  The same for the suffixes .b and .w. *)
Theorem C40_suffix_names : forall s x,
  to_suffix s = Some x <-> x <> S_none /\ same_name s (suffix_to_string x).
Proof. exact to_suffix_iff. Qed.
Example C40_suffix_names_ex : to_suffix ".B" = Some S_b /\ suffix_to_string S_b = ".b".
Proof. split; vm_compute; reflexivity. Qed.
Print Assumptions C40_suffix_names.

(** C40.  The same for directives; ".remote" is the name of the remote directive. *)
Theorem C40_directive_names : forall s d,
  to_directive_name s = Some d <->
  same_name s (match d with D_remote => ".remote" | d => dir_to_string d end).
Proof. exact to_directive_iff. Qed.
Example C40_directive_names_ex :
  to_directive_name ".oRg" = Some D_org /\ dir_to_string D_org = ".ORG" /\
  to_directive_name ".remote" = Some D_remote.
Proof. repeat split; vm_compute; reflexivity. Qed.
Print Assumptions C40_directive_names.

(** C40 does not hold of .REMOTE: its printed name is empty and is not read back. *)
Theorem C40_directive_names_refuted : exists d,
  to_directive_name (dir_to_string d) <> Some d /\ dir_to_string d = "".
Proof. exact remote_not_printed. Qed.
Print Assumptions C40_directive_names_refuted.

(** C16.  A string names a flag state exactly when it is one of the documented names in some
    letter case. *)
Theorem C16_flag_names : forall s f,
  flags_from_name s = Some f <-> exists n, In (n, f) documented_flags /\ same_name s n.
Proof. exact flags_from_name_iff. Qed.
Example C16_flag_names_ex :
  flags_from_name "M16x8" = Some (RawFlags B_off B_off B_on B_unknown) /\
  flags_from_name "x8m16" = None.
Proof. split; vm_compute; reflexivity. Qed.
Print Assumptions C16_flag_names.

(** C16.  Reading back the printed name of a state that came from a name gives the state. *)
Theorem C16_round_trip : forall s t f, flags_from_name s = Some f ->
  same_name t (flags_to_name f) -> flags_from_name t = Some f.
Proof. exact flags_name_round_trip_ci. Qed.
Example C16_round_trip_ex :
  flags_from_name "M16" = Some (RawFlags B_off B_off B_unknown B_unknown) /\
  flags_to_name (RawFlags B_off B_off B_unknown B_unknown) = "m16".
Proof. split; vm_compute; reflexivity. Qed.
Print Assumptions C16_round_trip.

(** C16.  The printed name of any state is a documented name, so it can be read back. *)
Theorem C16_printed_names : forall f, exists g, In (flags_to_name f, g) documented_flags.
Proof. exact flags_to_name_documented. Qed.
Example C16_printed_names_ex :
  flags_to_name (RawFlags B_off B_original B_on B_off) = "x8".
Proof. vm_compute. reflexivity. Qed.
Print Assumptions C16_printed_names.

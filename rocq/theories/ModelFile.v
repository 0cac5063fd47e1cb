(** Files of text.  Transcribes nsasm/file.cc; opening a file and failures of the stream
    are not modelled, a file is its contents. *)
From Verif Require Import Base ModelToken.
Open Scope string_scope.
Open Scope Z_scope.

Definition newline : ascii := "010"%char.

(** nsasm/file.cc:14-17: std::getline takes the characters before the next newline, or before
    the end; it fails when there are none before the end. *)
Fixpoint read_lines (t : string) : list string :=
  match t with
  | EmptyString => []
  | String c t' =>
      if Ascii.eqb c newline then "" :: read_lines t'
      else match read_lines t' with
           | [] => [String c ""]
           | l :: ls => String c l :: ls
           end
  end.

(** nsasm/file.cc:25: absl::StrSplit(contents, '\n'). *)
Fixpoint split_newlines (t : string) : list string :=
  match t with
  | EmptyString => [""]
  | String c t' =>
      if Ascii.eqb c newline then "" :: split_newlines t'
      else match split_newlines t' with
           | [] => [String c ""]
           | l :: ls => String c l :: ls
           end
  end.

(** nsasm/file.cc:27: absl::StripAsciiWhitespace, the front with [strip_leading]. *)
Fixpoint strip_trailing (s : string) : string :=
  match s with
  | EmptyString => ""
  | String c s' =>
      match strip_trailing s' with
      | EmptyString => if is_space c then "" else String c ""
      | r => String c r
      end
  end.
Definition strip_whitespace (s : string) : string := strip_trailing (strip_leading s).

(** nsasm/file.cc:24-30: MakeFakeFile. *)
Definition fake_file (t : string) : list string := map strip_whitespace (split_newlines t).

(** What the programs in util are asked to do on their command lines. *)
From Verif Require Import Base ModelState ModelMap ModelRom ModelFile SpecArith SpecText SpecNames SpecFlags SpecRom SpecFile.
Open Scope string_scope.
Open Scope Z_scope.

(** ** Numbers. *)
(** A sign, and what it multiplies with. *)
Definition sign_of (sg : string) (k : Z) : Prop := ((sg = "" \/ sg = "+") /\ k = 1) \/ (sg = "-" /\ k = -1).
(** A number stands at the start of an argument, behind space; what follows it does not matter. *)
Definition number (base : Z) (s : string) (v : Z) : Prop :=
  exists sp sg k pre ds n a rest, s = sp ++ sg ++ pre ++ ds ++ rest /\ spaces sp /\ sign_of sg k /\
    ((pre = "" /\ (base = 16 -> forall x r, ds = "0" -> rest = String x r -> x <> "x"%char /\ x <> "X"%char)) \/
     (base = 16 /\ (pre = "0x" \/ pre = "0X"))) /\
    numeral base ds n a /\ 0 < n /\ ends_numeral base rest /\ v = k * a.

(** ** Files. *)
(** The bytes of a file. *)
Definition has_bytes_of (t : string) (l : list Z) : Prop := l = map (fun c => Z.of_nat (nat_of_ascii c)) (list_ascii_of_string t).
(** The image in a file. *)
Definition image_at (disk : string -> option string) (path : string) (r : rom) : Prop :=
  exists t l, disk path = Some t /\ has_bytes_of t l /\ load_rom l = Ok r.
(** The lines of files. *)
Definition files_at (disk : string -> option string) (paths : list string) (files : list (list string)) : Prop :=
  Forall2 (fun p f => exists t, disk p = Some t /\ read_lines t = f) paths files.
(** [q] is the first of the files that is not there. *)
Definition missing_file (disk : string -> option string) (paths : list string) (q : string) : Prop :=
  exists before after, paths = List.app before (q :: after) /\ (forall x, In x before -> disk x <> None) /\ disk q = None.
(** The disk after a text has been saved under a name. *)
Definition saved (path text : string) (disk : string -> option string) : string -> option string :=
  fun p => if String.eqb p path then Some text else disk p.

(** ** Requests to disassemble. *)
(** The name of a processor mode. *)
Definition mode_named (s : string) (f : flags) : Prop := exists n, In (n, f) documented_flags /\ same_name s n.
(** The text of a number in an address, and whether the word there is meant. *)
Definition address_text (s t : string) (indirect : bool) : Prop :=
  (indirect = true /\ s = String "@" t) \/ (indirect = false /\ s = t /\ forall t', s <> String "@" t').
(** The address meant by an argument. *)
Definition asked (r : rom) (s : string) (a : Z) : Prop :=
  exists t indirect v, address_text s t indirect /\ number 16 t v /\ 0 <= v <= 2 ^ 24 /\
    if (indirect : bool) then addr24 v /\ exists b0 b1, in_rom r v b0 /\ in_rom r (same_bank_plus v 1) b1 /\ a = b0 + 2 ^ 8 * b1 else a = v.
(** Addresses and modes in turn; an address without a mode at the end does not count. *)
Inductive requests (r : rom) : list string -> list (Z * flags) -> Prop :=
| rq_none : requests r [] []
| rq_left : forall s, requests r [s] []
| rq_pair : forall s mode a f args rs, asked r s a -> mode_named mode f -> requests r args rs ->
    requests r (s :: mode :: args) ((a, f) :: rs).
(** Of several requests for an address the first counts. *)
Definition first_asked (rs : list (Z * flags)) (a : Z) (f : flags) : Prop :=
  exists l l', rs = (l ++ (a, f) :: l')%list /\ forall g, ~ In (a, g) l.
(** The map of requests, by address. *)
Definition holds_requests (m : omap flags) (rs : list (Z * flags)) : Prop :=
  (forall l1 a f l2 b g l3, m = (l1 ++ (a, f) :: l2 ++ (b, g) :: l3)%list -> a < b) /\
  forall a f, In (a, f) m <-> first_asked rs a f.

(** Requests that are turned down, with the lines printed: the first pair that is not a request
    decides. *)
Inductive turned_down (msg : err -> string) (usage : list string) (r : rom) : list string -> list string -> Prop :=
| td_mode : forall s mode args, (forall f, ~ mode_named mode f) -> turned_down msg usage r (s :: mode :: args) [mode ++ " does not name a processor mode"]
| td_number : forall s mode args f t indirect, mode_named mode f -> address_text s t indirect -> ~ spaces t -> (forall v, ~ number 16 t v) ->
    turned_down msg usage r (s :: mode :: args) usage
| td_read : forall s mode args f t v e, mode_named mode f -> address_text s t true -> number 16 t v -> 0 <= v <= 2 ^ 24 -> rom_read r v 2 = Err e ->
    turned_down msg usage r (s :: mode :: args) [msg e]
| td_later : forall s mode args a f out, asked r s a -> mode_named mode f -> turned_down msg usage r args out -> turned_down msg usage r (s :: mode :: args) out.
(** Requests with undefined behaviour: no number at all, or one that is too large. *)
Inductive undefined_requests (r : rom) : list string -> Prop :=
| ur_here : forall s mode args f t indirect, mode_named mode f -> address_text s t indirect ->
    (spaces t \/ exists v, number 16 t v /\ ~ 0 <= v <= 2 ^ 24) -> undefined_requests r (s :: mode :: args)
| ur_later : forall s mode args a f, asked r s a -> mode_named mode f -> undefined_requests r args -> undefined_requests r (s :: mode :: args).

(** ** Dumps. *)
(** An optional number: without it, or with nothing but space in its place, the default counts. *)
Definition optional (deflt : Z) (arg : option string) (v : Z) : Prop :=
  match arg with
  | None => v = deflt
  | Some s => (spaces s /\ v = deflt) \/ (number 10 s v /\ - 2 ^ 31 <= v < 2 ^ 31)
  end.

(** ** Sessions. *)
(** Prompt and answer for each line, and one more prompt. *)
Fixpoint session_text (answers : list (list string)) : string :=
  match answers with [] => "> " | a :: answers' => "> " ++ SpecFile.written_out a ++ session_text answers' end.

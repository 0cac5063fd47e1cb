(** Sets of bytes as lists of half-open intervals. *)
From Verif Require Import Base ModelRanges SpecArith.

(** The bytes of an interval, of a list of intervals, of a claim that wraps in its bank. *)
Definition inside (c : chunk) (x : Z) : Prop := fst c <= x < snd c.
Definition covers (r : list chunk) (x : Z) : Prop := exists c, In c r /\ inside c x.
Definition claimed (loc len x : Z) : Prop := exists k, 0 <= k < len /\ x = same_bank_plus loc k.

(** Nonempty intervals in increasing order, with a gap between any two. *)
Fixpoint canonical (r : list chunk) : Prop :=
  match r with
  | [] => True
  | c :: r' => fst c < snd c /\ (forall d, In d r' -> snd c < fst d) /\ canonical r'
  end.

(** A history of claims: (location, length, result) from the latest to the earliest, and the
    chunk list it leads to. *)
Inductive claims : list (Z * Z * bool) -> list chunk -> Prop :=
| cl_none : claims [] []
| cl_next : forall h r loc len ok r', claims h r -> addr24 loc ->
    claim_bytes r loc len = Ok (ok, r') -> claims ((loc, len, ok) :: h) r'.

(** A history of insertions: the map reached, and the accepted (range, value) pairs. *)
Inductive inserts {T} : rangemap T -> list (list chunk * T) -> Prop :=
| in_none : inserts (RangeMap [] []) []
| in_accept : forall m log cs v m', inserts m log -> canonical cs ->
    rm_insert m cs v = (true, m') -> inserts m' ((cs, v) :: log)
| in_reject : forall m log cs v m', inserts m log -> canonical cs ->
    rm_insert m cs v = (false, m') -> inserts m' log.

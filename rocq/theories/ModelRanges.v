(** Byte ranges.  Transcribes nsasm/ranges.{h,cc}. *)
From Verif Require Import Base ModelNumeric ModelAddress ModelMap.

(** nsasm/ranges.h:15. *)
Definition chunk := (Z * Z)%type.

(** Longest prefix satisfying a predicate, and the rest. *)
Fixpoint take_while {A} (f : A -> bool) (l : list A) : list A * list A :=
  match l with
  | [] => ([], [])
  | x :: l' => if f x then let (a, b) := take_while f l' in (x :: a, b) else ([], l)
  end.

(** std::upper_bound with LeftSideSearch (nsasm/ranges.cc:11-13, 34-35, 55-56): the chunks
    before and after the insertion point.  For a vector sorted by left boundary (which
    ranges_ always is, see Proofs) binary search finds the end of the longest prefix of
    chunks whose left boundary is not greater than [loc]. *)
Definition upper_bound (loc : Z) (l : list chunk) : list chunk * list chunk :=
  take_while (fun c => negb (loc <? fst c)) l.

(** nsasm/ranges.cc:30-41. *)
Definition range_contains (r : list chunk) (loc : Z) : bool :=
  match rev (fst (upper_bound loc r)) with
  | [] => false
  | c :: _ => (fst c <=? loc) && (loc <? snd c)
  end.

(** nsasm/ranges.cc:85-103: [pre] are the chunks before insertion_point, [p] the chunk at
    insertion_point, [rest] those after it. *)
Definition claim_finish (pre : list chunk) (p : chunk) (rest : list chunk) (overlaps : bool)
  : bool * list chunk :=
  let (merged, rest') := take_while (fun c => negb (snd p <? fst c)) rest in
  match merged with
  | [] => (negb overlaps, pre ++ p :: rest)
  | first :: _ =>
      let overlaps := if fst first <? snd p then true else overlaps in
      let p' := (fst p, Z.max (snd p) (snd (last merged first))) in
      (negb overlaps, pre ++ p' :: rest')
  end.

(** nsasm/ranges.cc:43-104. *)
Definition claim_chunk (r : list chunk) (n : chunk) : bool * list chunk :=
  match r with
  | [] => (true, [n])
  | _ =>
      let (before, after) := upper_bound (fst n) r in
      let no_left :=
        match after with
        | q :: after' =>
            if fst q <=? snd n then
              claim_finish before (fst n, Z.max (snd q) (snd n)) after' (fst q <? snd n)
            else (true, before ++ n :: after)
        | [] => (true, before ++ n :: after)
        end in
      match rev before with
      | p :: before' =>
          if fst n <=? snd p then
            claim_finish (rev before') (fst p, Z.max (snd p) (snd n)) after (fst n <? snd p)
          else no_left
      | [] => no_left
      end
  end.

(** nsasm/ranges.cc:17-28.  The number of iterations is at most length / 0x10000 + 2. *)
Fixpoint claim_loop (fuel : nat) (r : list chunk) (loc len : Z) (success : bool)
  : res (bool * list chunk) :=
  match fuel with
  | O => if 0 <? len then OutOfFuel else Ok (success, r)
  | S f =>
      if 0 <? len then
        let size := Z.min len (0x10000 - addr_low loc) in
        let* last := add_unwrapped loc size in
        let (ok, r') := claim_chunk r (loc, last) in
        claim_loop f r' (mk_address2 (addr_bank loc) 0) (len - size) (ok && success)
      else Ok (success, r)
  end.
Definition claim_bytes (r : list chunk) (loc len : Z) : res (bool * list chunk) :=
  claim_loop (Z.to_nat (len / 0x10000 + 2)) r loc len true.

(** std::pair comparison. *)
Definition chunk_ltb (a b : chunk) : bool :=
  (fst a <? fst b) || ((fst a =? fst b) && (snd a <? snd b)).

(** nsasm/ranges.h:42-65. *)
Record rangemap (T : Type) := RangeMap { rm_used : list chunk; rm_map : list (chunk * T) }.
Arguments RangeMap {T}.
Arguments rm_used {T}.
Arguments rm_map {T}.

(** std::map::emplace on mapping_ (sorted by chunk; an existing key is kept). *)
Fixpoint cm_emplace {T} (k : chunk) (v : T) (m : list (chunk * T)) : list (chunk * T) :=
  match m with
  | [] => [(k, v)]
  | (j, w) :: m' =>
      if chunk_ltb j k then (j, w) :: cm_emplace k v m'
      else if chunk_ltb k j then (k, v) :: m
      else m
  end.

(** The claim loop of Insert, nsasm/ranges.h:71-77: [None] on the first conflict. *)
Fixpoint claim_all (r : list chunk) (cs : list chunk) : option (list chunk) :=
  match cs with
  | [] => Some r
  | c :: cs' => let (ok, r') := claim_chunk r c in if ok then claim_all r' cs' else None
  end.

(** nsasm/ranges.h:69-84. *)
Definition rm_insert {T} (m : rangemap T) (cs : list chunk) (v : T) : bool * rangemap T :=
  match claim_all (rm_used m) cs with
  | None => (false, m)
  | Some used => (true, RangeMap used (fold_left (fun mm c => cm_emplace c v mm) cs (rm_map m)))
  end.

(** nsasm/ranges.h:86-100.  mapping_.upper_bound: first entry whose key is greater. *)
Definition rm_lookup {T} (m : rangemap T) (a : Z) : option T :=
  let (before, after) := take_while (fun kv => negb (chunk_ltb (a, a) (fst kv))) (rm_map m) in
  let left :=
    match rev before with
    | [] => None
    | (c, v) :: _ => if (fst c <=? a) && (a <? snd c) then Some v else None
    end in
  match after with
  | (c, v) :: _ => if fst c =? a then Some v else left
  | [] => left
  end.

(** nsasm/ranges.h:58-60. *)
Definition rm_contains {T} (m : rangemap T) (a : Z) : bool := range_contains (rm_used m) a.

(** Property theorems for byte ranges: C26, C27. *)
From Verif Require Import Base ModelRanges SpecArith SpecRanges RangesProofs.

(** C26.  After any history of claims: the chunk list is canonical, a byte is contained
    exactly when claimed, and the next claim is answered, with true exactly when it is
    disjoint from all earlier claims (and from itself: no longer than a bank). *)
Theorem C26_claims : forall h r, claims h r ->
  canonical r /\
  (forall x, range_contains r x = true <->
     exists loc len ok, In (loc, len, ok) h /\ claimed loc len x) /\
  (forall loc len, addr24 loc ->
     exists ok r', claim_bytes r loc len = Ok (ok, r') /\
       (ok = true <-> len <= 2 ^ 16 /\
          forall x l n o, claimed loc len x -> In (l, n, o) h -> ~ claimed l n x)).
Proof. exact claims_history. Qed.
Example C26_claims_case :
  claims [(0x008000, 0x20, false); (0x00fff0, 0x20, true); (0x008010, 0x10, true)]
         [(0, 0x10); (0x008000, 0x008020); (0x00fff0, 0x10000)].
Proof.
  eapply cl_next; [eapply cl_next; [eapply cl_next; [apply cl_none|..]|..]|..];
    try (vm_compute; reflexivity); split; vm_compute; congruence.
Qed.
Print Assumptions C26_claims.

(** The canonical list is determined by the set of bytes. *)
Theorem C26_representation : forall r1 r2, canonical r1 -> canonical r2 ->
  (forall x, covers r1 x <-> covers r2 x) -> r1 = r2.
Proof. exact canonical_unique. Qed.
Example C26_representation_case : canonical [(0, 4); (6, 8)] /\ covers [(0, 4); (6, 8)] 7.
Proof.
  split.
  - cbn. repeat split; try lia; try (intros d [<-|[]]; cbn; lia); intros d [].
  - exists (6, 8). cbn. unfold inside. cbn. split; [auto|lia].
Qed.
Print Assumptions C26_representation.

(** Claiming a single interval. *)
Theorem C26_chunk : forall r n ok r', canonical r -> fst n < snd n ->
  claim_chunk r n = (ok, r') ->
  canonical r' /\
  (forall x, covers r' x <-> covers r x \/ inside n x) /\
  (ok = true <-> forall x, inside n x -> ~ covers r x).
Proof. exact claim_chunk_spec. Qed.
Example C26_chunk_case :
  claim_chunk [(0, 4); (6, 8); (10, 12)] (4, 6) = (true, [(0, 8); (10, 12)]) /\
  claim_chunk [(0, 4); (6, 8); (10, 12)] (5, 10) = (false, [(0, 4); (5, 12)]).
Proof. split; reflexivity. Qed.
Print Assumptions C26_chunk.

(** C27.  Insertion into a range map is all-or-nothing. *)
Theorem C27_insert : forall T (m : rangemap T) log cs v, inserts m log -> canonical cs ->
  (fst (rm_insert m cs v) = true <->
     forall cs' w x, In (cs', w) log -> covers cs x -> ~ covers cs' x) /\
  (fst (rm_insert m cs v) = false -> snd (rm_insert m cs v) = m).
Proof. exact rangemap_insert. Qed.
Example C27_insert_case : inserts (RangeMap [(0, 4); (6, 8)] [((0, 4), 1); ((6, 8), 1)])
                                  [([(0, 4); (6, 8)], 1)].
Proof.
  eapply in_accept; [apply in_none| |reflexivity].
  cbn. repeat split; try lia; try (intros d [<-|[]]; cbn; lia); intros d [].
Qed.
Print Assumptions C27_insert.

(** Lookup returns exactly the value inserted for the range containing the address. *)
Theorem C27_lookup : forall T (m : rangemap T) log a, inserts m log ->
  (forall v, rm_lookup m a = Some v <-> exists cs, In (cs, v) log /\ covers cs a) /\
  (rm_contains m a = true <-> exists v, rm_lookup m a = Some v).
Proof. exact rangemap_lookup. Qed.
Example C27_lookup_case :
  rm_lookup (RangeMap [(0, 8)] [((0, 4), 1); ((4, 8), 2)]) 4 = Some 2 /\
  rm_lookup (RangeMap [(0, 8)] [((0, 4), 1); ((4, 8), 2)]) 3 = Some 1 /\
  rm_lookup (RangeMap [(0, 8)] [((0, 4), 1); ((4, 8), 2)]) 8 = None.
Proof. repeat split. Qed.
Print Assumptions C27_lookup.

(** Sequence sets: what the properties C28-C30 talk about. *)

From Verif Require Import Bytes BytesFacts Dec Nom Types SeqSet.
From Coq Require Import Sorted Permutation.
Open Scope N_scope.

(** The number a [SeqOrUid] stands for when the largest number in use is [largest] *)
Definition number (largest : N) (s : seq_or_uid) : N :=
  match s with SValue n => n | SAsterisk => largest end.
(** RFC 3501, seq-range: the order of the bounds does not matter. *)
Definition in_sequence (largest : N) (q : sequence) (n : N) : Prop :=
  match q with
  | SSingle a => n = number largest a
  | SRange a b =>
    number largest a <= n <= number largest b \/ number largest b <= n <= number largest a
  end.
Definition in_set (largest : N) (s : sequence_set) (n : N) : Prop :=
  exists q, In q s /\ in_sequence largest q n.

(** Calling [next] until it returns [None] yields the list (and never panics). *)
Inductive yields : iter_state -> list N -> Prop :=
| yields_end st : iter_next st = ItNone -> yields st []
| yields_next st n st' l : iter_next st = ItSome n st' -> yields st' l -> yields st (n :: l).

(** All numbers from [a] to [b], upwards or downwards *)
Definition walk (a b : N) : list N :=
  if N.leb a b then map (fun i => a + N.of_nat i) (seq 0 (N.to_nat (b + 1 - a)))
  else map (fun i => a - N.of_nat i) (seq 0 (N.to_nat (a + 1 - b))).
Definition walk_sequence (largest : N) (q : sequence) : list N :=
  match q with
  | SSingle a => walk (number largest a) (number largest a)
  | SRange a b => walk (number largest a) (number largest b)
  end.

(** The bounds written in a set *)
Definition bounds (q : sequence) : list seq_or_uid :=
  match q with SSingle a => [a] | SRange a b => [a; b] end.
Definition has_value (s : sequence_set) (v : N) : Prop :=
  exists q, In q s /\ In (SValue v) (bounds q).

(** No two sequences of the list overlap or touch, and they are in order ([*] is last). *)
Definition first_of (q : sequence) : N :=
  match q with SSingle a => to_u32 a | SRange a _ => to_u32 a end.
Definition last_of (q : sequence) : N :=
  match q with SSingle a => to_u32 a | SRange _ b => to_u32 b end.
Definition tidy (s : sequence_set) : Prop :=
  Forall (fun q => match q with SSingle _ => True | SRange a b => to_u32 a < to_u32 b end) s /\
  StronglySorted (fun q r => last_of q + 1 < first_of r) s.

(** What the hash set and the unstable sort may do. The hash set holds the number of every
    sequence of the set that is a single number; its iteration order is any listing of it. *)
Definition hash_order (s : sequence_set) (order : list N) : Prop :=
  NoDup order /\
  forall x, In x order <-> exists a, x = to_u32 a /\ (In (SSingle a) s \/ In (SRange a a) s).
Definition some_order (order singles : list N) : Prop := Permutation order singles.
Definition some_sort (sorter : list range -> list range) : Prop :=
  forall l, Permutation (sorter l) l /\ StronglySorted (fun r s => fst r <= fst s) (sorter l).

(** ** The textual grammar (RFC 3501: seq-number, seq-range, sequence-set) *)
Definition number_text (s : bytes) (n : N) : Prop :=
  forallb is_digit s = true /\ s <> [] /\ starts_with (bs "0") s = false /\
  n = dval s /\ n <= u32_max.
Definition seq_number_text (s : bytes) (x : seq_or_uid) : Prop :=
  match x with SValue n => number_text s n | SAsterisk => s = bs "*" end.
Definition sequence_text (s : bytes) (x : sequence) : Prop :=
  match x with
  | SSingle a => seq_number_text s a
  | SRange a b => exists u v, s = u ++ bs ":" ++ v /\ seq_number_text u a /\ seq_number_text v b
  end.
Fixpoint sequence_set_text (s : bytes) (x : sequence_set) : Prop :=
  match x with
  | [] => False
  | [q] => sequence_text s q
  | q :: x' => exists u v, s = u ++ bs "," ++ v /\ sequence_text u q /\ sequence_set_text v x'
  end.

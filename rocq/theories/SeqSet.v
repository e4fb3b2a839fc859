(** Sequence sets: /repo/imap-types/src/sequence.rs *)

From Verif Require Import Bytes Features Nom Types Dec.
Open Scope N_scope.

(* sequence.rs:327-334 SeqOrUid::to_non_zero_u32 *)
Definition to_u32 (s : seq_or_uid) : N :=
  match s with SValue n => n | SAsterisk => u32_max end.

(* sequence.rs:337-346 Ord for SeqOrUid *)
Definition seq_or_uid_cmp (a b : seq_or_uid) : comparison :=
  match a, b with
  | SValue a, SValue b => N.compare a b
  | SAsterisk, SAsterisk => Eq
  | _, SAsterisk => Lt
  | SAsterisk, _ => Gt
  end.

(* sequence.rs:354-362 From<NonZeroU32> for SeqOrUid *)
Definition seq_or_uid_from (n : N) : seq_or_uid :=
  if N.eqb n u32_max then SAsterisk else SValue n.

(** [u32::saturating_add(1)], [u32::saturating_sub(1)] *)
Definition sat_succ (n : N) : N := if N.ltb n u32_max then n + 1 else u32_max.

(* sequence.rs:216-231 Sequence::normalize; [==] and [>] are [cmp] *)
Definition sequence_normalize (s : sequence) : sequence :=
  match s with
  | SRange a b =>
    match seq_or_uid_cmp a b with
    | Eq => SSingle a
    | Gt => SRange b a
    | Lt => s
    end
  | SSingle _ => s
  end.

(** [core::ops::Range<NonZeroU32>]: start (inclusive), end (exclusive) *)
Definition range := (N * N)%type.
(** [Range::contains] *)
Definition range_contains (r : range) (x : N) : bool := N.leb (fst r) x && N.ltb x (snd r).

(** sequence.rs:44-56, first loop: the ranges, in order. *)
Definition range_of (s : sequence) : range :=
  match sequence_normalize s with
  | SSingle i => (to_u32 i, sat_succ (to_u32 i))
  | SRange a b => (to_u32 a, sat_succ (to_u32 b))
  end.
(** The same loop: the elements of the hash set [singles]. *)
Fixpoint singles_of (l : list sequence) : list N :=
  match l with
  | [] => []
  | s :: l' =>
    match sequence_normalize s with
    | SSingle i =>
      let r := singles_of l' in
      if existsb (N.eqb (to_u32 i)) r then r else to_u32 i :: r
    | SRange _ _ => singles_of l'
    end
  end.

(** sequence.rs:60-70, body of the inner loop for one single and one range:
    the new range, and whether the single is removed. *)
Definition absorb_step (single : N) (r : range) : range * bool :=
  if N.eqb single (N.max (fst r) 2 - 1) then ((single, snd r), true)
  else if N.eqb single (snd r) then ((fst r, single), true)
  else (r, range_contains r single).
Definition absorb_ranges (single : N) (rs : list range) : list range :=
  map (fun r => fst (absorb_step single r)) rs.
Definition absorb_removes (single : N) (rs : list range) : bool :=
  existsb (fun r => snd (absorb_step single r)) rs.

(** sequence.rs:59-71, the outer loop over [singles.clone()] in iteration order [order]:
    the final ranges and the singles that remain in the hash set. *)
Fixpoint absorb (order : list N) (rs : list range) : list range * list N :=
  match order with
  | [] => (rs, [])
  | s :: order' =>
    let (rs', keep) := absorb order' (absorb_ranges s rs) in
    (rs', if absorb_removes s rs then keep else s :: keep)
  end.

(** Insertion sort by a key; [slice::sort_by_key] (stable). *)
Fixpoint insert_by {A} (key : A -> N) (x : A) (l : list A) : list A :=
  match l with
  | [] => [x]
  | y :: l' => if N.leb (key x) (key y) then x :: l else y :: insert_by key x l'
  end.
Fixpoint sort_by {A} (key : A -> N) (l : list A) : list A :=
  match l with [] => [] | x :: l' => insert_by key x (sort_by key l') end.

(** sequence.rs:780-803 [merge_ranges] after sorting; [last] is [merged.last_mut()]. *)
Fixpoint merge_loop (last : range) (rs : list range) : list range :=
  match rs with
  | [] => [last]
  | r :: rs' =>
    if N.leb (fst r) (snd last)
    then merge_loop (fst last, N.max (snd last) (snd r)) rs'
    else last :: merge_loop r rs'
  end.
Definition merge_sorted (rs : list range) : list range :=
  match rs with [] => [] | r :: rs' => merge_loop r rs' end.

(** sequence.rs:78-90: the sequence pushed for a merged range. *)
Definition sequence_of_range (r : range) : sequence :=
  let (a, b) := r in
  if N.eqb a b || N.eqb (sat_succ a) b then SSingle (seq_or_uid_from a)
  else if N.eqb b u32_max then SRange (seq_or_uid_from a) SAsterisk
  else SRange (seq_or_uid_from a) (seq_or_uid_from (N.max b 2 - 1)).

(** sequence.rs:100-103: the key of the final sort. *)
Definition sequence_key (s : sequence) : N :=
  match s with SSingle a => to_u32 a | SRange a _ => to_u32 a end.

(** sequence.rs:39-106 SequenceSet::normalize, for a given iteration order of the hash set
    and a given result of [sort_unstable_by_key] (both unspecified in Rust; see
    [normalize] and the order-independence theorem). *)
Definition normalize_with (order : list N) (sorter : list range -> list range)
    (s : sequence_set) : sequence_set :=
  let (rs, keep) := absorb order (map range_of s) in
  let merged := merge_sorted (sorter rs) in
  let keep' := filter (fun x => negb (existsb (fun r => range_contains r x) merged)) keep in
  sort_by sequence_key
    (map sequence_of_range merged ++ map (fun x => SSingle (seq_or_uid_from x)) keep').

Definition normalize (s : sequence_set) : sequence_set :=
  normalize_with (singles_of s) (sort_by fst) s.

(** ** Iteration, sequence.rs:632-778 *)

(* sequence.rs:674-681 SeqOrUid::expand *)
Definition expand (largest : N) (s : seq_or_uid) : N :=
  match s with SValue n => n | SAsterisk => largest end.

(* sequence.rs:736-755 simplify *)
Definition simplify (largest : N) (sort : bool) (s : sequence_set) : list (N * N) :=
  map (fun q =>
    match q with
    | SSingle a => (expand largest a, expand largest a)
    | SRange a b =>
      let a := expand largest a in
      let b := expand largest b in
      if sort then (if N.leb a b then (a, b) else (b, a)) else (a, b)
    end) s.

(** [Ord] of [(u32, u32)] (lexicographic), and [Vec::sort] *)
Definition pair_leb (x y : N * N) : bool :=
  N.ltb (fst x) (fst y) || (N.eqb (fst x) (fst y) && N.leb (snd x) (snd y)).
Fixpoint insert_pair (x : N * N) (l : list (N * N)) : list (N * N) :=
  match l with
  | [] => [x]
  | y :: l' => if pair_leb x y then x :: l else y :: insert_pair x l'
  end.
Fixpoint sort_pairs (l : list (N * N)) : list (N * N) :=
  match l with [] => [] | x :: l' => insert_pair x (sort_pairs l') end.

(* sequence.rs:757-778 cleanup; [None] is the panic of [pop_front().unwrap()] *)
Fixpoint cleanup_loop (last : N * N) (l : list (N * N)) : list (N * N) :=
  match l with
  | [] => [last]
  | (x, y) :: l' =>
    if N.leb (fst last) x && N.leb x (sat_succ (snd last))
    then cleanup_loop (fst last, N.max (snd last) y) l'
    else last :: cleanup_loop (x, y) l'
  end.
Definition cleanup (l : list (N * N)) : option (list (N * N)) :=
  match sort_pairs l with
  | [] => None
  | x :: l' => Some (cleanup_loop x l')
  end.

(** [RangeInclusive<u32>]: start, end, and the flag that marks it exhausted *)
Record range_inclusive := RangeInclusive { ri_start : N; ri_end : N; ri_exhausted : bool }.
(** [RangeInclusive::next] *)
Definition ri_next (r : range_inclusive) : option (N * range_inclusive) :=
  let (a, b, e) := r in
  if e || N.ltb b a then None
  else if N.ltb a b then Some (a, RangeInclusive (a + 1) b false)
  else Some (a, RangeInclusive a b true).
(** [RangeInclusive::next_back] *)
Definition ri_next_back (r : range_inclusive) : option (N * range_inclusive) :=
  let (a, b, e) := r in
  if e || N.ltb b a then None
  else if N.ltb a b then Some (b, RangeInclusive a (b - 1) false)
  else Some (b, RangeInclusive a b true).

(* sequence.rs:716-719 Sorting *)
Inductive sorting := Ascending (r : range_inclusive) | Descending (r : range_inclusive).
(* sequence.rs:721-730 Sorting::next *)
Definition sorting_next (s : sorting) : option (N * sorting) :=
  match s with
  | Ascending r => option_map (fun x => (fst x, Ascending (snd x))) (ri_next r)
  | Descending r => option_map (fun x => (fst x, Descending (snd x))) (ri_next_back r)
  end.

(* sequence.rs:685-688 SequenceSetIter *)
Record iter_state := IterState { it_ranges : list (N * N); it_active : option sorting }.
(** The result of one call of [next]; [ItPanic] is [NonZeroU32::new(0).unwrap()]. *)
Inductive iter_step := ItNone | ItSome (n : N) (st : iter_state) | ItPanic.
Definition active_next (active : option sorting) : option (N * sorting) :=
  match active with Some s => sorting_next s | None => None end.
(* sequence.rs:701-705 *)
Definition start_range (p : N * N) : sorting :=
  let (a, b) := p in
  if N.leb a b then Ascending (RangeInclusive a b false)
  else Descending (RangeInclusive b a false).
(* sequence.rs:693-714 SequenceSetIter::next; the loop, by recursion on the queue *)
Fixpoint iter_loop (ranges : list (N * N)) (active : option sorting) : iter_step :=
  match active_next active with
  | Some (n, s) => if N.eqb n 0 then ItPanic else ItSome n (IterState ranges (Some s))
  | None =>
    match ranges with
    | [] => ItNone
    | p :: ranges' => iter_loop ranges' (Some (start_range p))
    end
  end.
Definition iter_next (st : iter_state) : iter_step := iter_loop (it_ranges st) (it_active st).

(* sequence.rs:632-640 SequenceSet::iter; None is a panic *)
Definition iter (s : sequence_set) (largest : N) : option iter_state :=
  option_map (fun l => IterState l None) (cleanup (simplify largest true s)).
(* sequence.rs:664-671 SequenceSet::iter_naive *)
Definition iter_naive (s : sequence_set) (largest : N) : iter_state :=
  IterState (simplify largest false s) None.

(** ** Conversions *)

(** [str::split(c)] *)
Fixpoint split_on (c : byte) (s : bytes) : list bytes :=
  match s with
  | [] => [[]]
  | x :: s' =>
    if beq x c then [] :: split_on c s'
    else match split_on c s' with
         | h :: t => (x :: h) :: t
         | [] => [[x]]
         end
  end.

Definition nz (n : N) : option N := if N.eqb n 0 then None else Some n.

(** [NonZeroU32::from_str]: an optional leading '+', digits, no overflow, non-zero *)
Definition nz_u32_from_str (s : bytes) : option N :=
  let digits := match s with
    | c :: ((_ :: _) as s') => if beq c "+"%byte then s' else s
    | _ => s
    end in
  match parse_max u32_max digits with Some n => nz n | None => None end.

(* sequence.rs:431-450 FromStr for SeqOrUid *)
Definition seq_or_uid_from_str (s : bytes) : option seq_or_uid :=
  if beqs s (bs "*") then Some SAsterisk
  else if starts_with (bs "0") s then None
  else option_map SValue (nz_u32_from_str s).

(* sequence.rs:295-316 FromStr for Sequence *)
Definition sequence_from_str (s : bytes) : option sequence :=
  match split_on ":"%byte s with
  | [] => None
  | [_] => option_map SSingle (seq_or_uid_from_str s)
  | [a; b] =>
    match seq_or_uid_from_str a, seq_or_uid_from_str b with
    | Some a, Some b => Some (SRange a b)
    | _, _ => None
    end
  | _ => None
  end.

Fixpoint sequence_opt {A} (l : list (option A)) : option (list A) :=
  match l with
  | [] => Some []
  | None :: _ => None
  | Some a :: l' => option_map (cons a) (sequence_opt l')
  end.

(* sequence.rs:190-204 FromStr for SequenceSet ([split] never yields an empty list) *)
Definition sequence_set_from_str (s : bytes) : option sequence_set :=
  match sequence_opt (map sequence_from_str (split_on ","%byte s)) with
  | Some [] => None
  | r => r
  end.

(* sequence.rs:395-407 TryFrom<num> for SeqOrUid (any integer type, here [Z]) *)
Definition seq_or_uid_from_num (n : Z) : option seq_or_uid :=
  if Z.leb 1 n && Z.leb n (Z.of_N u32_max) then Some (SValue (Z.to_N n)) else None.

(** sequence.rs:498-551 [TryFrom<range of num>] for Sequence; [dec1] is
    [saturating_sub(1)] of the integer type with minimum [tmin]. *)
Definition dec1 (tmin n : Z) : Z := Z.max tmin (n - 1).
Definition opt2 {A B C} (f : A -> B -> C) (a : option A) (b : option B) : option C :=
  match a, b with Some a, Some b => Some (f a b) | _, _ => None end.
Definition seq_from_range_from (start : Z) : option sequence :=
  option_map (fun a => SRange a SAsterisk) (seq_or_uid_from_num start).
Definition seq_from_range_to (tmin stop : Z) : option sequence :=
  option_map (SRange (seq_or_uid_from 1)) (seq_or_uid_from_num (dec1 tmin stop)).
Definition seq_from_range_to_incl (stop : Z) : option sequence :=
  option_map (SRange (seq_or_uid_from 1)) (seq_or_uid_from_num stop).
Definition seq_from_range (tmin start stop : Z) : option sequence :=
  opt2 SRange (seq_or_uid_from_num start) (seq_or_uid_from_num (dec1 tmin stop)).
Definition seq_from_range_incl (start stop : Z) : option sequence :=
  opt2 SRange (seq_or_uid_from_num start) (seq_or_uid_from_num stop).

(** sequence.rs:566-607 conversions from ranges of NonZeroU32 *)
Definition seq_from_nz_range_from (start : N) : sequence :=
  SRange (seq_or_uid_from start) SAsterisk.
Definition seq_from_range_full : sequence := seq_from_nz_range_from 1.
Definition seq_from_nz_range (start stop : N) : option sequence :=
  option_map (SRange (seq_or_uid_from 1)) (seq_or_uid_from_num (dec1 0 (Z.of_N stop))).
Definition seq_from_nz_range_to (stop : N) : option sequence := seq_from_nz_range 1 stop.
Definition seq_from_nz_range_incl (start stop : N) : sequence :=
  SRange (seq_or_uid_from start) (seq_or_uid_from stop).
Definition seq_from_nz_range_to_incl (stop : N) : sequence := seq_from_nz_range_incl 1 stop.

(* sequence.rs:148-162 TryFrom<Vec<NonZeroU32>> for SequenceSet *)
Definition sequence_set_from_nz_list (l : list N) : option sequence_set :=
  match l with [] => None | _ => Some (map (fun n => SSingle (seq_or_uid_from n)) l) end.
(* sequence.rs:365-377 TryFrom<&[num]> for SequenceSet *)
Definition sequence_set_from_num_list (l : list Z) : option sequence_set :=
  match sequence_opt (map (fun n => option_map SSingle (seq_or_uid_from_num n)) l) with
  | Some [] => None
  | r => r
  end.

(** ** Comparison *)
Definition sou_ltb (a b : seq_or_uid) : bool :=
  match seq_or_uid_cmp a b with Lt => true | _ => false end.
(** [Ord::min], [Ord::max]: [min] prefers its first argument, [max] its second. *)
Definition sou_min (a b : seq_or_uid) : seq_or_uid := if sou_ltb b a then b else a.
Definition sou_max (a b : seq_or_uid) : seq_or_uid := if sou_ltb b a then a else b.
(* sequence.rs:234-273 PartialOrd for Sequence *)
Definition sequence_partial_cmp (q r : sequence) : option comparison :=
  match q, r with
  | SSingle a, SSingle b => Some (seq_or_uid_cmp a b)
  | SSingle a, SRange b1 b2 =>
    if sou_ltb a (sou_min b1 b2) then Some Lt
    else if sou_ltb (sou_max b1 b2) a then Some Gt
    else None
  | SRange a1 a2, SSingle b =>
    if sou_ltb b (sou_min a1 a2) then Some Gt
    else if sou_ltb (sou_max a1 a2) b then Some Lt
    else None
  | SRange a1 a2, SRange b1 b2 =>
    if sou_ltb (sou_max a1 a2) b1 && sou_ltb (sou_max a1 a2) b2 then Some Lt
    else if sou_ltb b1 (sou_min a1 a2) && sou_ltb b2 (sou_min a1 a2) then Some Gt
    else None
  end.

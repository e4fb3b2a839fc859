(** The combinators of Nom.v once more, now counting steps. A parser returns, beside its
    result, how many steps it took: every call of a combinator is a step, and so is every
    byte that is compared, classified or searched. A conversion ([map], [map_res], ...) is
    charged as many steps as bytes were consumed by the parser whose result it converts.
    Slices are taken in one step. The results are those of Nom.v (CostErase.v).

    nom and abnf-core are not part of /repo, so what their functions cost is, like what they
    return, part of the trusted base (see DESIGN.md). *)

From Verif Require Import Bytes Features Nom.

Definition parser (A : Type) := bytes -> res A * nat.

Definition bind {A B} (p : parser A) (f : A -> parser B) : parser B := fun i =>
  match p i with
  | (ROk r a, c) => let '(y, d) := f a r in (y, S (c + d))
  | (RInc, c) => (RInc, S c)
  | (RErr, c) => (RErr, S c)
  | (RFail e, c) => (RFail e, S c)
  | (RPanic, c) => (RPanic, S c)
  end.

Definition ret {A} (a : A) : parser A := fun i => (ROk i a, 1).
Definition perr {A} : parser A := fun _ => (RErr, 1).
Definition pfail {A} : parser A := fun _ => (RFail FOther, 1).
Definition panic {A} : parser A := fun _ => (RPanic, 1).
(** [n] steps of work on values already read *)
Definition work (n : nat) : parser unit := fun i => (ROk i tt, n).

Notation "x <- p ;; q" := (bind p (fun x => q))
  (at level 61, p at next level, right associativity).
Notation "' pat <- p ;; q" := (bind p (fun x => match x with pat => q end))
  (at level 61, pat pattern, p at next level, right associativity).
Notation "p ;;; q" := (bind p (fun _ => q))
  (at level 61, right associativity).

(** A conversion of the value of [p]: as many steps as bytes were consumed *)
Definition conv {A B} (p : parser A) (f : A -> bytes -> res B) : parser B := fun i =>
  match p i with
  | (ROk r a, c) => (f a r, S (c + (length i - length r)))
  | (RInc, c) => (RInc, S c)
  | (RErr, c) => (RErr, S c)
  | (RFail e, c) => (RFail e, S c)
  | (RPanic, c) => (RPanic, S c)
  end.
Definition pmap {A B} (f : A -> B) (p : parser A) : parser B :=
  conv p (fun a r => ROk r (f a)).
Definition map_res {A B} (p : parser A) (f : A -> option B) : parser B :=
  conv p (fun a r => match f a with Some b => ROk r b | None => RErr end).
Definition value {A B} (b : B) (p : parser A) : parser B := p ;;; ret b.

Definition tick {A} (x : res A * nat) : res A * nat := let '(y, c) := x in (y, S c).

Fixpoint tag (t : bytes) : parser unit := fun i =>
  match t with
  | [] => (ROk i tt, 1)
  | c :: t' =>
    match i with
    | [] => (RInc, 1)
    | x :: i' => if beq x c then tick (tag t' i') else (RErr, 1)
    end
  end.

Fixpoint tag_no_case (t : bytes) : parser unit := fun i =>
  match t with
  | [] => (ROk i tt, 1)
  | c :: t' =>
    match i with
    | [] => (RInc, 1)
    | x :: i' => if beq (lower x) (lower c) then tick (tag_no_case t' i') else (RErr, 1)
    end
  end.

Definition sat (f : byte -> bool) : parser byte := fun i =>
  match i with
  | [] => (RInc, 1)
  | x :: i' => if f x then (ROk i' x, 1) else (RErr, 1)
  end.
Definition char (c : byte) : parser byte := sat (fun x => beq x c).

(** Bytes looked at by [span]: up to and including the first that does not satisfy [f] *)
Definition span_cost (f : byte -> bool) (i : bytes) : nat :=
  match span f i with
  | Some (a, _) => S (length a)
  | None => length i
  end.

Definition take_while (f : byte -> bool) : parser bytes := fun i =>
  (match span f i with
   | Some (a, r) => ROk r a
   | None => RInc
   end, S (span_cost f i)).

Definition take_while1 (f : byte -> bool) : parser bytes := fun i =>
  (match span f i with
   | Some ([], _) => RErr
   | Some (a, r) => ROk r a
   | None => RInc
   end, S (span_cost f i)).

(** nom looks for the first byte not satisfying [f] even beyond the first [n] *)
Definition take_while_m_n (m n : nat) (f : byte -> bool) : parser bytes := fun i =>
  (match span f i with
   | Some (a, _) =>
     if Nat.leb m (length a)
     then (if Nat.leb (length a) n then ROk (skipn (length a) i) a
           else ROk (skipn n i) (firstn n i))
     else RErr
   | None =>
     if Nat.leb n (length i) then ROk (skipn n i) (firstn n i) else RInc
   end, S (span_cost f i)).

Definition take (n : N) : parser bytes := fun i =>
  (if N.leb n (lenN i)
   then ROk (skipn (N.to_nat n) i) (firstn (N.to_nat n) i)
   else RInc, 1).

Definition take_until2 (c1 c2 : byte) : parser bytes := fun i =>
  match find2 c1 c2 i with
  | Some (a, r) => (ROk r a, S (S (length a)))
  | None => (RInc, S (length i))
  end.

Definition orp {A} (p q : parser A) : parser A := fun i =>
  match p i with
  | (RErr, c) => let '(y, d) := q i in (y, S (c + d))
  | (r, c) => (r, S c)
  end.
Fixpoint alt {A} (ps : list (parser A)) : parser A :=
  match ps with
  | [] => perr
  | [p] => p
  | p :: ps' => orp p (alt ps')
  end.

Definition opt {A} (p : parser A) : parser (option A) := fun i =>
  match p i with
  | (ROk r a, c) => (ROk r (Some a), S c)
  | (RErr, c) => (ROk i None, S c)
  | (RInc, c) => (RInc, S c)
  | (RFail e, c) => (RFail e, S c)
  | (RPanic, c) => (RPanic, S c)
  end.

Definition peek {A} (p : parser A) : parser A := fun i =>
  match p i with
  | (ROk _ a, c) => (ROk i a, S c)
  | (e, c) => (e, S c)
  end.

Definition recognize {A} (p : parser A) : parser bytes := fun i =>
  match p i with
  | (ROk r _, c) => (ROk r (firstn (length i - length r) i), S c)
  | (RInc, c) => (RInc, S c)
  | (RErr, c) => (RErr, S c)
  | (RFail e, c) => (RFail e, S c)
  | (RPanic, c) => (RPanic, S c)
  end.

Fixpoint many0_f {A} (fuel : nat) (p : parser A) : parser (list A) := fun i =>
  match fuel with
  | O => (RPanic, 1)
  | S fuel' =>
    match p i with
    | (RErr, c) => (ROk i [], S c)
    | (ROk r a, c) =>
      if Nat.ltb (length r) (length i) then
        match many0_f fuel' p r with
        | (ROk r' l, d) => (ROk r' (a :: l), S (c + d))
        | (e, d) => (e, S (c + d))
        end
      else (RErr, S c)
    | (RInc, c) => (RInc, S c)
    | (RFail e, c) => (RFail e, S c)
    | (RPanic, c) => (RPanic, S c)
    end
  end.
Definition many0 {A} (p : parser A) : parser (list A) := fun i =>
  many0_f (S (length i)) p i.

Definition many1 {A} (p : parser A) : parser (list A) :=
  a <- p ;; l <- many0 p ;; ret (a :: l).

Fixpoint many_m {A} (m : nat) (p : parser A) : parser (list A) :=
  match m with
  | O => many0 p
  | S m' => fun i =>
    match p i with
    | (ROk r a, c) =>
      if Nat.ltb (length r) (length i) then
        match many_m m' p r with
        | (ROk r' l, d) => (ROk r' (a :: l), S (c + d))
        | (e, d) => (e, S (c + d))
        end
      else (RErr, S c)
    | (RInc, c) => (RInc, S c)
    | (RErr, c) => (RErr, S c)
    | (RFail e, c) => (RFail e, S c)
    | (RPanic, c) => (RPanic, S c)
    end
  end.

Fixpoint sep_loop_f {A B} (fuel : nat) (sep : parser B) (p : parser A) : parser (list A) :=
  fun i =>
  match fuel with
  | O => (RPanic, 1)
  | S fuel' =>
    match sep i with
    | (RErr, c) => (ROk i [], S c)
    | (RInc, c) => (RInc, S c)
    | (RFail e, c) => (RFail e, S c)
    | (RPanic, c) => (RPanic, S c)
    | (ROk i1 _, c) =>
      if Nat.ltb (length i1) (length i) then
        match p i1 with
        | (RErr, d) => (ROk i [], S (c + d))
        | (RInc, d) => (RInc, S (c + d))
        | (RFail e, d) => (RFail e, S (c + d))
        | (RPanic, d) => (RPanic, S (c + d))
        | (ROk i2 a, d) =>
          if Nat.leb (length i2) (length i1) then
            match sep_loop_f fuel' sep p i2 with
            | (ROk r l, e) => (ROk r (a :: l), S (c + d + e))
            | (x, e) => (x, S (c + d + e))
            end
          else (RPanic, S (c + d))
        end
      else (RErr, S c)
    end
  end.
Definition sep_loop {A B} (sep : parser B) (p : parser A) : parser (list A) := fun i =>
  sep_loop_f (S (length i)) sep p i.

Definition sep_list1 {A B} (sep : parser B) (p : parser A) : parser (list A) :=
  a <- p ;; l <- sep_loop sep p ;; ret (a :: l).

Definition sep_list0 {A B} (sep : parser B) (p : parser A) : parser (list A) := fun i =>
  match p i with
  | (RErr, c) => (ROk i [], S c)
  | (RInc, c) => (RInc, S c)
  | (RFail e, c) => (RFail e, S c)
  | (RPanic, c) => (RPanic, S c)
  | (ROk r a, c) =>
    match sep_loop sep p r with
    | (ROk r' l, d) => (ROk r' (a :: l), S (c + d))
    | (e, d) => (e, S (c + d))
    end
  end.

(** Every round looks at the bytes of one run of [take_while1], or at two bytes *)
Fixpoint escaped_f (fuel : nat) (normal : byte -> bool) (control : byte)
    (escapable : byte -> bool) : parser bytes := fun i =>
  match fuel with
  | O => (RPanic, 1)
  | S fuel' =>
    match i with
    | [] => (RInc, 1)
    | x :: i' =>
      match take_while1 normal i with
      | (ROk [] _, c) => (RInc, S c)
      | (ROk r a, c) =>
        match escaped_f fuel' normal control escapable r with
        | (ROk r' s, d) => (ROk r' (a ++ s), S (c + d))
        | (e, d) => (e, S (c + d))
        end
      | (RErr, c) =>
        if beq x control then
          match i' with
          | [] => (RInc, S (S c))
          | y :: i'' =>
            if escapable y then
              match i'' with
              | [] => (RInc, S (S (S c)))
              | _ =>
                match escaped_f fuel' normal control escapable i'' with
                | (ROk r' s, d) => (ROk r' (x :: y :: s), S (S (S (c + d))))
                | (e, d) => (e, S (S (S (c + d))))
                end
              end
            else (RErr, S (S (S c)))
          end
        else (ROk i [], S (S c))
      | (RInc, c) => (RInc, S c)
      | (RFail e, c) => (RFail e, S c)
      | (RPanic, c) => (RPanic, S c)
      end
    end
  end.
Definition escaped (normal : byte -> bool) (control : byte)
    (escapable : byte -> bool) : parser bytes := fun i =>
  escaped_f (S (length i)) normal control escapable i.

Definition sp : parser byte := char bSP.
Definition dquote : parser byte := char bDQ.

Definition crlf `{features} : parser unit :=
  if quirk_crlf_relaxed
  then opt (char bCR) ;;; char bLF ;;; ret tt
  else tag [bCR; bLF].

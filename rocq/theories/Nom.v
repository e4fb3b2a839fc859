(** The nom 7.1.3 *streaming* parser combinators used by imap-codec, and the two
    abnf-core 0.6 token parsers.

    nom and abnf-core are not part of /repo; this file is a hand-written model of the
    functions imported by imap-codec/src/*.rs and is part of the trusted base
    (see DESIGN.md).

    [IMAPResult] and its error type are defined in
    /repo/imap-codec/src/codec/decode.rs:47-128. Error kinds other than
    [IMAPErrorKind::Literal] never influence a decoder's result and are erased. *)

From Verif Require Import Bytes Features.

(** imap-types/src/core.rs [LiteralMode] *)
Inductive lit_mode := Sync | NonSync.

(** [nom::Err::Failure] with [IMAPErrorKind::Literal {tag, length, mode}]
    or with any other kind. *)
Inductive failure :=
| FLit (tag : option bytes) (len : N) (mode : lit_mode)
| FOther.

(** Result of running a parser: [Ok((rest, a))], [Err(Incomplete)], [Err(Error)],
    [Err(Failure)], or a panic (also used when the fuel of a modelled loop runs out;
    shown unreachable). *)
Inductive res (A : Type) :=
| ROk (rest : bytes) (a : A)
| RInc
| RErr
| RFail (f : failure)
| RPanic.
Arguments ROk {A} rest a.
Arguments RInc {A}.
Arguments RErr {A}.
Arguments RFail {A} f.
Arguments RPanic {A}.

Definition parser (A : Type) := bytes -> res A.

(** Sequencing; models [tuple], [preceded], [delimited], [terminated],
    [separated_pair] and the [?] operator. *)
Definition bind {A B} (p : parser A) (f : A -> parser B) : parser B := fun i =>
  match p i with
  | ROk r a => f a r
  | RInc => RInc
  | RErr => RErr
  | RFail e => RFail e
  | RPanic => RPanic
  end.

(** [nom::combinator::success] *)
Definition ret {A} (a : A) : parser A := fun i => ROk i a.
(** An unconditional [Err(Error)]. *)
Definition perr {A} : parser A := fun _ => RErr.
(** An unconditional [Err(Failure)] of a non-literal kind. *)
Definition pfail {A} : parser A := fun _ => RFail FOther.

Notation "x <- p ;; q" := (bind p (fun x => q))
  (at level 61, p at next level, right associativity).
Notation "' pat <- p ;; q" := (bind p (fun x => match x with pat => q end))
  (at level 61, pat pattern, p at next level, right associativity).
Notation "p ;;; q" := (bind p (fun _ => q))
  (at level 61, right associativity).

(** [nom::combinator::map] *)
Definition pmap {A B} (f : A -> B) (p : parser A) : parser B := a <- p ;; ret (f a).
(** [nom::combinator::value] *)
Definition value {A B} (b : B) (p : parser A) : parser B := p ;;; ret b.
(** [nom::combinator::map_res] / [map_opt]: conversion failure is [Err(Error)] *)
Definition map_res {A B} (p : parser A) (f : A -> option B) : parser B :=
  a <- p ;; match f a with Some b => ret b | None => perr end.

(** [nom::bytes::streaming::tag] (the matched slice is never used) *)
Fixpoint tag (t : bytes) : parser unit := fun i =>
  match t with
  | [] => ROk i tt
  | c :: t' =>
    match i with
    | [] => RInc
    | x :: i' => if beq x c then tag t' i' else RErr
    end
  end.

(** [nom::bytes::streaming::tag_no_case] *)
Fixpoint tag_no_case (t : bytes) : parser unit := fun i =>
  match t with
  | [] => ROk i tt
  | c :: t' =>
    match i with
    | [] => RInc
    | x :: i' => if beq (lower x) (lower c) then tag_no_case t' i' else RErr
    end
  end.

(** [nom::character::streaming::one_of] / [char] over a byte predicate *)
Definition sat (f : byte -> bool) : parser byte := fun i =>
  match i with
  | [] => RInc
  | x :: i' => if f x then ROk i' x else RErr
  end.
Definition char (c : byte) : parser byte := sat (fun x => beq x c).

(** Split at the first byte not satisfying [f]; [None] if there is none. *)
Fixpoint span (f : byte -> bool) (i : bytes) : option (bytes * bytes) :=
  match i with
  | [] => None
  | x :: i' =>
    if f x then
      match span f i' with
      | Some (a, r) => Some (x :: a, r)
      | None => None
      end
    else Some ([], i)
  end.

(** [nom::bytes::streaming::take_while] *)
Definition take_while (f : byte -> bool) : parser bytes := fun i =>
  match span f i with
  | Some (a, r) => ROk r a
  | None => RInc
  end.

(** [nom::bytes::streaming::take_while1], [nom::character::streaming::digit1] *)
Definition take_while1 (f : byte -> bool) : parser bytes := fun i =>
  match span f i with
  | Some ([], _) => RErr
  | Some (a, r) => ROk r a
  | None => RInc
  end.

(** [nom::bytes::streaming::take_while_m_n] for [m <= n] *)
Definition take_while_m_n (m n : nat) (f : byte -> bool) : parser bytes := fun i =>
  match span f i with
  | Some (a, _) =>
    if Nat.leb m (length a)
    then (if Nat.leb (length a) n then ROk (skipn (length a) i) a
          else ROk (skipn n i) (firstn n i))
    else RErr
  | None =>
    if Nat.leb n (length i) then ROk (skipn n i) (firstn n i) else RInc
  end.

(** [nom::bytes::streaming::take]; the count is a [u32] *)
Definition take (n : N) : parser bytes := fun i =>
  if N.leb n (lenN i)
  then ROk (skipn (N.to_nat n) i) (firstn (N.to_nat n) i)
  else RInc.

(** [nom::bytes::streaming::take_until] for the two-byte pattern [c1 c2] *)
Fixpoint find2 (c1 c2 : byte) (i : bytes) : option (bytes * bytes) :=
  match i with
  | x :: i' =>
    match i' with
    | y :: _ =>
      if beq x c1 && beq y c2 then Some ([], i)
      else match find2 c1 c2 i' with
           | Some (a, r) => Some (x :: a, r)
           | None => None
           end
    | [] => None
    end
  | [] => None
  end.
Definition take_until2 (c1 c2 : byte) : parser bytes := fun i =>
  match find2 c1 c2 i with
  | Some (a, r) => ROk r a
  | None => RInc
  end.

(** [nom::branch::alt] *)
Definition orp {A} (p q : parser A) : parser A := fun i =>
  match p i with RErr => q i | r => r end.
Fixpoint alt {A} (ps : list (parser A)) : parser A :=
  match ps with
  | [] => perr
  | [p] => p
  | p :: ps' => orp p (alt ps')
  end.

(** [nom::combinator::opt] *)
Definition opt {A} (p : parser A) : parser (option A) := fun i =>
  match p i with
  | ROk r a => ROk r (Some a)
  | RErr => ROk i None
  | RInc => RInc
  | RFail e => RFail e
  | RPanic => RPanic
  end.

(** [nom::combinator::peek] *)
Definition peek {A} (p : parser A) : parser A := fun i =>
  match p i with
  | ROk _ a => ROk i a
  | e => e
  end.

(** [nom::combinator::recognize]: the consumed input *)
Definition recognize {A} (p : parser A) : parser bytes := fun i =>
  match p i with
  | ROk r _ => ROk r (firstn (length i - length r) i)
  | RInc => RInc
  | RErr => RErr
  | RFail e => RFail e
  | RPanic => RPanic
  end.

(** [nom::multi::many0]. nom stops with an error when an iteration leaves the length of
    the input unchanged; a parser never lengthens it, so testing "not shorter" is the
    same and makes the loop total. Fuel: one more than the input length. *)
Fixpoint many0_f {A} (fuel : nat) (p : parser A) : parser (list A) := fun i =>
  match fuel with
  | O => RPanic
  | S fuel' =>
    match p i with
    | RErr => ROk i []
    | ROk r a =>
      if Nat.ltb (length r) (length i) then
        match many0_f fuel' p r with
        | ROk r' l => ROk r' (a :: l)
        | e => e
        end
      else RErr
    | RInc => RInc
    | RFail e => RFail e
    | RPanic => RPanic
    end
  end.
Definition many0 {A} (p : parser A) : parser (list A) := fun i =>
  many0_f (S (length i)) p i.

(** [nom::multi::many1] *)
Definition many1 {A} (p : parser A) : parser (list A) :=
  a <- p ;; l <- many0 p ;; ret (a :: l).

(** [nom::multi::many_m_n] with [max = usize::MAX] (as at every call site): [m] mandatory
    iterations, then [many0]. *)
Fixpoint many_m {A} (m : nat) (p : parser A) : parser (list A) :=
  match m with
  | O => many0 p
  | S m' => fun i =>
    match p i with
    | ROk r a =>
      if Nat.ltb (length r) (length i) then
        match many_m m' p r with
        | ROk r' l => ROk r' (a :: l)
        | e => e
        end
      else RErr
    | RInc => RInc
    | RErr => RErr
    | RFail e => RFail e
    | RPanic => RPanic
    end
  end.

(** The loop of [nom::multi::separated_list0/1]: an element error after a separator
    leaves the input *before* that separator. *)
Fixpoint sep_loop_f {A B} (fuel : nat) (sep : parser B) (p : parser A) : parser (list A) :=
  fun i =>
  match fuel with
  | O => RPanic
  | S fuel' =>
    match sep i with
    | RErr => ROk i []
    | RInc => RInc
    | RFail e => RFail e
    | RPanic => RPanic
    | ROk i1 _ =>
      if Nat.ltb (length i1) (length i) then
        match p i1 with
        | RErr => ROk i []
        | RInc => RInc
        | RFail e => RFail e
        | RPanic => RPanic
        | ROk i2 a =>
          if Nat.leb (length i2) (length i1) then
            match sep_loop_f fuel' sep p i2 with
            | ROk r l => ROk r (a :: l)
            | e => e
            end
          else RPanic
        end
      else RErr
    end
  end.
Definition sep_loop {A B} (sep : parser B) (p : parser A) : parser (list A) := fun i =>
  sep_loop_f (S (length i)) sep p i.

(** [nom::multi::separated_list1] *)
Definition sep_list1 {A B} (sep : parser B) (p : parser A) : parser (list A) :=
  a <- p ;; l <- sep_loop sep p ;; ret (a :: l).

(** [nom::multi::separated_list0] *)
Definition sep_list0 {A B} (sep : parser B) (p : parser A) : parser (list A) := fun i =>
  match p i with
  | RErr => ROk i []
  | RInc => RInc
  | RFail e => RFail e
  | RPanic => RPanic
  | ROk r a =>
    match sep_loop sep p r with
    | ROk r' l => ROk r' (a :: l)
    | e => e
    end
  end.

(** [nom::bytes::streaming::escaped(take_while1(normal), control, one_of(escapable))].
    Returns the consumed (still escaped) bytes. *)
Fixpoint escaped_f (fuel : nat) (normal : byte -> bool) (control : byte)
    (escapable : byte -> bool) : parser bytes := fun i =>
  match fuel with
  | O => RPanic
  | S fuel' =>
    match i with
    | [] => RInc
    | x :: i' =>
      match take_while1 normal i with
      | ROk [] _ => RInc
      | ROk r a =>
        match escaped_f fuel' normal control escapable r with
        | ROk r' s => ROk r' (a ++ s)
        | e => e
        end
      | RErr =>
        if beq x control then
          match i' with
          | [] => RInc
          | y :: i'' =>
            if escapable y then
              match i'' with
              | [] => RInc
              | _ =>
                match escaped_f fuel' normal control escapable i'' with
                | ROk r' s => ROk r' (x :: y :: s)
                | e => e
                end
              end
            else RErr
          end
        else ROk i []
      | RInc => RInc
      | RFail e => RFail e
      | RPanic => RPanic
      end
    end
  end.
Definition escaped (normal : byte -> bool) (control : byte)
    (escapable : byte -> bool) : parser bytes := fun i =>
  escaped_f (S (length i)) normal control escapable i.

(** abnf_core::streaming::{sp, dquote} *)
Definition sp : parser byte := char bSP.
Definition dquote : parser byte := char bDQ.

(** abnf_core::streaming::{crlf, crlf_relaxed}, selected by [quirk_crlf_relaxed]
    (imap-codec/src/core.rs:3-6 and the same imports in the other files). *)
Definition crlf `{features} : parser unit :=
  if quirk_crlf_relaxed
  then opt (char bCR) ;;; char bLF ;;; ret tt
  else tag [bCR; bLF].

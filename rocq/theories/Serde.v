(** serde: the data model and the derived implementations that imap-types uses.

    With the feature "serde", every message type has [#[derive(Serialize, Deserialize)]].
    [Serialize] turns a value into a tree of the serde data model, [Deserialize] reads such a
    tree. The trees below are those a self-describing format (JSON, CBOR, ...) carries. The
    derived code is generated by serde_derive 1 (not part of /repo); this file models what it
    does for the shapes of types and the attributes that occur in /repo:
    - a struct with named fields is a map, or a sequence of its fields in order when read;
      unknown keys are ignored, a repeated key is an error, a missing field is an error unless
      its type is [Option];
    - an enum with [serde(tag = "type", content = "content")] is a map with these keys, or a
      sequence of two when read;
    - an enum of unit variants without that attribute is the name of the variant, or a map
      from the name to null when read;
    - a tuple is a sequence, a newtype is what it wraps, [Option] is null or the value,
      [Vec<u8>] is a sequence of numbers;
    - [serde(try_from = "T")] reads a [T] and converts it.

    Simplifications: an error is [None], without its message. Names of variants and fields are
    strings (some formats also accept their numbers). A value of chrono is a leaf: how chrono
    writes a date as text and reads it back is not modelled. *)

From Verif Require Import Bytes Utf8 Types.
Open Scope nat_scope.

Inductive tree :=
| TNull
| TBool (b : bool)
| TNum (n : N)
| TStr (s : bytes)
(** [chrono::NaiveDate], [chrono::DateTime<FixedOffset>]; any year, nanoseconds, offset in
    seconds *)
| TDate (year : Z) (month day : N)
| TDateTime (year : Z) (month day hour min sec nanos : N) (offset : Z)
| TSeq (l : list tree)
| TMap (l : list (bytes * tree)).

(** ** Leaves *)

(** [String]: always UTF-8 *)
Definition de_string (t : tree) : option bytes :=
  match t with TStr s => if utf8_ok s then Some s else None | _ => None end.
Definition ser_string (s : bytes) : tree := TStr s.

(** [serde(try_from = "String")] with a validation *)
Definition de_str (ok : bytes -> bool) (t : tree) : option bytes :=
  match de_string t with Some s => if ok s then Some s else None | None => None end.

(** [char] and [serde(try_from = "char")]: a string of one character. Only the validation of
    [QuotedChar] is used; it refuses characters that are not ASCII, so only strings of one byte
    matter. *)
Definition de_char (ok : byte -> bool) (t : tree) : option byte :=
  match t with TStr [b] => if ok b then Some b else None | _ => None end.
Definition ser_char (b : byte) : tree := TStr [b].

Definition ser_bool (b : bool) : tree := TBool b.
Definition de_bool (t : tree) : option bool := match t with TBool b => Some b | _ => None end.

(** [u8], [u32], [u64] *)
Definition ser_num (n : N) : tree := TNum n.
Definition de_num (max : N) (t : tree) : option N :=
  match t with TNum n => if N.leb n max then Some n else None | _ => None end.
(** [NonZeroU32], [NonZeroU64] *)
Definition de_nonzero (max : N) (t : tree) : option N :=
  match de_num max t with Some n => if N.eqb n 0 then None else Some n | None => None end.
Definition ser_u8 (b : byte) : tree := TNum (bN b).
Definition de_u8 (t : tree) : option byte :=
  match t with TNum n => Byte.of_N n | _ => None end.

(** ** [Option], [Vec], tuples *)

Definition ser_opt {A} (f : A -> tree) (o : option A) : tree :=
  match o with Some a => f a | None => TNull end.
Definition de_opt {A} (d : tree -> option A) (t : tree) : option (option A) :=
  match t with
  | TNull => Some None
  | _ => match d t with Some a => Some (Some a) | None => None end
  end.

Definition ser_vec {A} (f : A -> tree) (l : list A) : tree := TSeq (map f l).
Fixpoint de_all {A} (d : tree -> option A) (l : list tree) : option (list A) :=
  match l with
  | [] => Some []
  | t :: l' =>
    match d t with
    | Some a => match de_all d l' with Some r => Some (a :: r) | None => None end
    | None => None
    end
  end.
Definition de_vec {A} (d : tree -> option A) (t : tree) : option (list A) :=
  match t with TSeq l => de_all d l | _ => None end.

(** core.rs:1529-1532 [VecN]: [serde(try_from = "Vec<T>")], :1575-1583 [try_from] *)
Definition de_vec_n {A} (n : nat) (d : tree -> option A) (t : tree) : option (list A) :=
  match de_vec d t with
  | Some l => if Nat.ltb (length l) n then None else Some l
  | None => None
  end.

Definition ser_pair {A B} (f : A -> tree) (g : B -> tree) (p : A * B) : tree :=
  TSeq [f (fst p); g (snd p)].
Definition de_pair {A B} (d : tree -> option A) (e : tree -> option B) (t : tree)
  : option (A * B) :=
  match t with
  | TSeq [x; y] =>
    match d x, e y with Some a, Some b => Some (a, b) | _, _ => None end
  | _ => None
  end.

(** ** Structs *)

(** The values of a key in a map *)
Definition entries (k : bytes) (l : list (bytes * tree)) : list tree :=
  map snd (filter (fun e => beqs k (fst e)) l).

(** The fields of a struct as found in the input; [None] is a missing one. *)
Definition slots := list (option tree).
Fixpoint find_fields (names : list bytes) (l : list (bytes * tree)) : option slots :=
  match names with
  | [] => Some []
  | k :: names' =>
    match find_fields names' l with
    | Some s =>
      match entries k l with
      | [] => Some (None :: s)
      | [t] => Some (Some t :: s)
      | _ => None
      end
    | None => None
    end
  end.
Definition de_struct {A} (names : list bytes) (k : slots -> option A) (t : tree) : option A :=
  match t with
  | TMap l => match find_fields names l with Some s => k s | None => None end
  | TSeq l => if Nat.eqb (length l) (length names) then k (map Some l) else None
  | _ => None
  end.
Definition ser_struct (names : list bytes) (vals : list tree) : tree :=
  TMap (combine names vals).

(** A field that must be there, a field whose type is [Option], a field that only exists with a
    feature, and the end of the fields *)
Definition req {A B} (d : tree -> option A) (k : A -> slots -> option B) (s : slots)
  : option B :=
  match s with
  | Some t :: s' => match d t with Some a => k a s' | None => None end
  | _ => None
  end.
Definition opt {A B} (d : tree -> option A) (k : option A -> slots -> option B) (s : slots)
  : option B :=
  match s with
  | None :: s' => k None s'
  | Some t :: s' => match de_opt d t with Some a => k a s' | None => None end
  | [] => None
  end.
Definition only {A B} (feature : bool) (absent : A)
  (field : (A -> slots -> option B) -> slots -> option B)
  (k : A -> slots -> option B) (s : slots) : option B :=
  if feature then field k s else k absent s.
Definition fin {A} (a : A) (s : slots) : option A := match s with [] => Some a | _ => None end.
(** Names and values of the fields behind a feature *)
Definition if_on {A} (feature : bool) (l : list A) : list A := if feature then l else [].

Notation "x <== f ;; k" := (f (fun x => k))
  (at level 61, f at next level, right associativity, only parsing).

(** ** Enums with [serde(tag = "type", content = "content")] *)

Definition key_type := bs "type".
Definition key_content := bs "content".

Definition ser_unit (name : bytes) : tree := TMap [(key_type, TStr name)].
Definition ser_variant (name : bytes) (content : tree) : tree :=
  TMap [(key_type, TStr name); (key_content, content)].

(** A variant: its name, whether it exists with the enabled features, how its content is read
    ([None]: there is no content). *)
Definition variant A := (bytes * bool * (option tree -> option A))%type.
Fixpoint pick {A} (name : bytes) (content : option tree) (l : list (variant A)) : option A :=
  match l with
  | [] => None
  | (n, on, d) :: l' =>
    if beqs n name then if on then d content else None else pick name content l'
  end.
Definition de_enum {A} (l : list (variant A)) (t : tree) : option A :=
  match t with
  | TMap m =>
    match entries key_type m, entries key_content m with
    | [TStr name], [] => pick name None l
    | [TStr name], [c] => pick name (Some c) l
    | _, _ => None
    end
  | TSeq [TStr name; c] => pick name (Some c) l
  | _ => None
  end.

(** The content of a unit variant (none, or null), of a newtype variant, of a newtype variant
    around an [Option], of a tuple variant with two fields and of a struct variant *)
Definition c_unit {A} (a : A) (c : option tree) : option A :=
  match c with None => Some a | Some TNull => Some a | _ => None end.
Definition c_newtype {A B} (d : tree -> option A) (f : A -> B) (c : option tree) : option B :=
  match c with Some t => option_map f (d t) | None => None end.
Definition c_newopt {A B} (d : tree -> option A) (f : option A -> B) (c : option tree)
  : option B :=
  match c with Some t => option_map f (de_opt d t) | None => Some (f None) end.
Definition c_pair {A B C} (d : tree -> option A) (e : tree -> option B) (f : A -> B -> C)
  (c : option tree) : option C :=
  match c with
  | Some t => option_map (fun p => f (fst p) (snd p)) (de_pair d e t)
  | None => None
  end.
Definition c_struct {A} (names : list bytes) (k : slots -> option A) (c : option tree)
  : option A :=
  match c with Some t => de_struct names k t | None => None end.

(** ** Enums of unit variants without attribute *)
Definition ser_name (name : bytes) : tree := TStr name.
Definition de_names {A} (l : list (bytes * bool * A)) (t : tree) : option A :=
  let find (name : bytes) :=
    match filter (fun v => beqs name (fst (fst v))) l with
    | (_, on, a) :: _ => if on then Some a else None
    | [] => None
    end in
  match t with
  | TStr name => find name
  | TMap [(name, TNull)] => find name
  | _ => None
  end.

(** ** Height of a tree: the fuel for the types that contain themselves *)
Fixpoint height (t : tree) : nat :=
  match t with
  | TSeq l => S (list_max (map height l))
  | TMap l => S (list_max (map (fun e => height (snd e)) l))
  | _ => 1
  end.

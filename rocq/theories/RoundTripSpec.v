(** What the round-trip properties (C09-C13, C17, C19, C22, C38, C39) talk about. *)

From Verif Require Import Bytes BytesFacts Dec Features Nom Types SeqSet EncodeCtx Decode.

(** Decoding the dumped encoding, followed by anything, gives the message and that rest. *)
Definition decodes_to {E A} (enc : A -> list fragment) (dec : bytes -> outcome E A) (a b : A) : Prop :=
  forall rest, dec (dump_fragments (enc a) ++ rest) = Decoded rest b.

(** The message the encoder writes. It differs from the given one only if one of the features
    [quirk_always_normalize_sequence_sets] and [quirk_id_empty_to_nil] is enabled: sequence
    sets are replaced by their normal form, an empty list of ID parameters by NIL. *)
Section Written.
Context {F : features}.
Definition w_set (s : sequence_set) : sequence_set :=
  if quirk_always_normalize_sequence_sets then normalize s else s.
Definition w_id (p : option (list (istring * nstring))) : option (list (istring * nstring)) :=
  match p with
  | Some [] => if quirk_id_empty_to_nil then None else p
  | _ => p
  end.
Fixpoint w_search_key (k : search_key) : search_key :=
  match k with
  | KSequenceSet s => KSequenceSet (w_set s)
  | KUid s => KUid (w_set s)
  | KNot k => KNot (w_search_key k)
  | KOr a b => KOr (w_search_key a) (w_search_key b)
  | KAnd l => KAnd (map w_search_key l)
  | k => k
  end.
Definition w_select_parameter (p : select_parameter) : select_parameter :=
  match p with
  | SPCondStore => SPCondStore
  | SPQResync v m k s =>
    SPQResync v m (option_map w_set k) (option_map (fun p => (w_set (fst p), w_set (snd p))) s)
  end.
Definition w_command_body (c : command_body) : command_body :=
  match c with
  | CSelect m ps => CSelect m (map w_select_parameter ps)
  | CExamine m ps => CExamine m (map w_select_parameter ps)
  | CExpungeUid s => CExpungeUid (w_set s)
  | CSearch cs l uid => CSearch cs (map w_search_key l) uid
  | CSort so cs l uid => CSort so cs (map w_search_key l) uid
  | CThread a cs l uid => CThread a cs (map w_search_key l) uid
  | CFetch s m uid mods => CFetch (w_set s) m uid mods
  | CStore s k r fl uid mods => CStore (w_set s) k r fl uid mods
  | CCopy s m uid => CCopy (w_set s) m uid
  | CMove s m uid => CMove (w_set s) m uid
  | CId p => CId (w_id p)
  | c => c
  end.
Definition w_command (c : command) : command := mkCommand (cmd_tag c) (w_command_body (cmd_body c)).

Definition w_code (c : code) : code :=
  match c with CdModified s => CdModified (w_set s) | c => c end.
Definition w_greeting (g : greeting) : greeting :=
  mkGreeting (gr_kind g) (option_map w_code (gr_code g)) (gr_text g).
Definition w_status_body (b : status_body) : status_body :=
  mkStatusBody (sb_kind b) (option_map w_code (sb_code b)) (sb_text b).
Definition w_response (r : response) : response :=
  match r with
  | RStatus (StUntagged b) => RStatus (StUntagged (w_status_body b))
  | RStatus (StTagged t b) => RStatus (StTagged t (w_status_body b))
  | RStatus (StBye c t) => RStatus (StBye (option_map w_code c) t)
  | RContinue (CRBasic c t) => RContinue (CRBasic (option_map w_code c) t)
  | RData (DId p) => RData (DId (w_id p))
  | RData (DVanished earlier s) => RData (DVanished earlier (w_set s))
  | r => r
  end.

(** A FETCH response with a MODSEQ item is written in a form that is not read back. *)
Definition is_modseq (m : message_data_item) : bool :=
  match m with MDModSeq _ => true | _ => false end.
Definition has_modseq (r : response) : bool :=
  match r with RData (DFetch _ l) => existsb is_modseq l | _ => false end.
End Written.

(** [p] is a strict prefix of [s]. *)
Definition strict_prefix (p s : bytes) : Prop := exists x y, s = p ++ x :: y.

(** ** C22: fragments *)
(** A line that ends in an announcement of a literal, [{n}] or [{n+}] *)
Definition announces (line : bytes) (n : N) (m : lit_mode) : Prop :=
  exists before digits,
    line = before ++ bs "{" ++ digits ++ match m with Sync => [] | NonSync => bs "+" end ++ bs "}" ++ [bCR; bLF] /\
    digits <> [] /\ forallb is_digit digits = true /\ dval digits = n.
(** Lines and literals alternate: a literal follows the line that announces it, and the
    message ends with a line. *)
Inductive framed : list fragment -> Prop :=
| framed_last line : framed [FrLine (line ++ [bCR; bLF])]
| framed_literal line d m rest :
    announces line (lenN d) m -> framed rest -> framed (FrLine line :: FrLiteral d m :: rest).

(** Which fragments are literals, and their contents *)
Definition literals_of (l : list fragment) : list (bytes * lit_mode) :=
  flat_map (fun f => match f with FrLine _ => [] | FrLiteral d m => [(d, m)] end) l.

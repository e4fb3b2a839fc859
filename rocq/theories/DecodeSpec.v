(** What the properties of the decoders (C14-C21) talk about. *)

From Verif Require Import Bytes BytesFacts Dec Features Nom Types Utf8 Conv Decode Valid.

Section Spec.
Context {F : features}.

(** The input ends right after a literal announcement [{n}] or [{n+}] and a line ending. *)
Definition ends_in_announcement (i : bytes) (n : N) (m : lit_mode) : Prop :=
  exists before digits plus eol,
    i = before ++ bs "{" ++ digits ++ plus ++ bs "}" ++ eol /\
    digits <> [] /\ forallb is_digit digits = true /\ n = dval digits /\
    plus = match m with Sync => [] | NonSync => bs "+" end /\
    (eol = [bCR; bLF] \/ quirk_crlf_relaxed = true /\ eol = [bLF]).

(** The final verdict of each decoder *)
Definition is_failed (e : simple_error) := match e with Failed => true | _ => false end.
Definition cmd_failed (e : command_error) := match e with CmdFailed => true | _ => false end.
Definition rsp_failed (e : response_error) := match e with RspFailed => true | _ => false end.

(** Success is stable under more input and reports the unconsumed rest. *)
Definition stable {E A} (d : bytes -> outcome E A) : Prop := forall i r a,
  d i = Decoded r a ->
  (exists consumed, i = consumed ++ [bLF] ++ r) /\
  forall more, d (i ++ more) = Decoded (r ++ more) a.
(** A failure is final: more input does not help. *)
Definition final_failure {E A} (failed : E -> bool) (d : bytes -> outcome E A) : Prop :=
  forall i e more, d i = Error e -> failed e = true -> d (i ++ more) = Error e.

(** The search keys of a command *)
Definition search_keys (c : command_body) : list search_key :=
  match c with
  | CSearch _ l _ | CSort _ _ l _ | CThread _ _ l _ => l
  | _ => []
  end.
(** The threads and the bodies of a response *)
Definition threads (r : response) : list thread :=
  match r with RData (DThread l) => l | _ => [] end.
Definition item_bodies (m : message_data_item) : list body_structure :=
  match m with MDBody b | MDBodyStructure b => [b] | _ => [] end.
Definition bodies (r : response) : list body_structure :=
  match r with RData (DFetch _ l) => flat_map item_bodies l | _ => [] end.
(** How often multiparts are nested without an embedded message in between *)
Fixpoint multipart_depth (b : body_structure) : nat :=
  match b with
  | BSSingle _ _ _ => 0
  | BSMulti l _ _ => S (list_max (map multipart_depth l))
  end.
(** How often messages and multiparts are nested *)
Fixpoint body_depth (b : body_structure) : nat :=
  match b with
  | BSSingle _ (SFMessage _ b' _) _ => S (body_depth b')
  | BSSingle _ _ _ => 0
  | BSMulti l _ _ => S (list_max (map body_depth l))
  end.
(** The body and the bodies of the messages embedded in it *)
Fixpoint sub_bodies (b : body_structure) : list body_structure :=
  match b with
  | BSSingle _ (SFMessage _ b' _) _ => b :: sub_bodies b'
  | BSSingle _ _ _ => [b]
  | BSMulti l _ _ => b :: flat_map sub_bodies l
  end.
(** The body extensions at the top of one body *)
Definition tail_extensions (t : option disposition) : list body_extension :=
  match t with
  | Some d =>
    match disp_tail d with
    | Some l => match lang_tail l with Some loc => loc_extensions loc | None => [] end
    | None => []
    end
  | None => []
  end.
Definition top_extensions (b : body_structure) : list body_extension :=
  match b with
  | BSSingle _ _ (Some e) => tail_extensions (se_tail e)
  | BSMulti _ _ (Some e) => tail_extensions (me_tail e)
  | _ => []
  end.
End Spec.

(** The encoder's output buffer: /repo/imap-codec/src/codec/encode.rs:102-253.

    In Rust every [encode_ctx] method mutates an [EncodeContext]. The methods only use
    [write_all], and literals use one fixed sequence of calls
    (encode.rs:801-814, extensions/binary.rs:81-94). The model separates the two: an
    [encode_ctx] method is a function returning the list of operations it performs
    ([list op], one [B] per written byte, one [Lit] per literal); [run_ops] performs them. *)

From Verif Require Import Bytes Nom Dec.

Inductive op :=
| B (b : byte)
| Lit (is8 : bool) (mode : lit_mode) (data : bytes).

(** [ctx.write_all(s)] *)
Definition W (s : bytes) : list op := map B s.

(** The text written in front of a literal: encode.rs:804-806, binary.rs:83-86. *)
Definition lit_header (is8 : bool) (mode : lit_mode) (len : N) : bytes :=
  (if is8 then ["~"%byte] else []) ++ "{"%byte :: dec len ++
  match mode with Sync => [] | NonSync => ["+"%byte] end ++ ["}"%byte; bCR; bLF].

(** encode.rs:158-164 [Fragment] *)
Inductive fragment :=
| FrLine (data : bytes)
| FrLiteral (data : bytes) (mode : lit_mode).

(** encode.rs:169-172 [EncodeContext]. [items] in order. *)
Record ctx := mkCtx { c_acc : bytes; c_items : list fragment }.

(* encode.rs:175-177 *)
Definition ctx_new : ctx := mkCtx [] [].
(* encode.rs:179-183 *)
Definition push_line (c : ctx) : ctx := mkCtx [] (c_items c ++ [FrLine (c_acc c)]).
(* encode.rs:185-190 *)
Definition push_literal (c : ctx) (m : lit_mode) : ctx :=
  mkCtx [] (c_items c ++ [FrLiteral (c_acc c) m]).
(* encode.rs:192-203 *)
Definition into_items (c : ctx) : list fragment :=
  match c_acc c with
  | [] => c_items c
  | _ => c_items c ++ [FrLine (c_acc c)]
  end.
(* encode.rs:221-230 *)
Definition write (c : ctx) (s : bytes) : ctx := mkCtx (c_acc c ++ s) (c_items c).

(* encode.rs:801-814, binary.rs:81-94 *)
Definition run_op (c : ctx) (o : op) : ctx :=
  match o with
  | B b => write c [b]
  | Lit is8 m d => push_literal (write (push_line (write c (lit_header is8 m (lenN d)))) d) m
  end.
Definition run_ops (c : ctx) (l : list op) : ctx := fold_left run_op l c.

(** encode.rs:232-247 [Encoder::encode]: the fragments. *)
Definition fragments (l : list op) : list fragment := into_items (run_ops ctx_new l).

(** encode.rs:132-146 [Encoded::dump] *)
Definition fragment_data (f : fragment) : bytes :=
  match f with FrLine d => d | FrLiteral d _ => d end.
Definition dump_fragments (l : list fragment) : bytes := flat_map fragment_data l.

(** The bytes of an operation list; equal to [dump_fragments (fragments l)]. *)
Definition dump_op (o : op) : bytes :=
  match o with B b => [b] | Lit is8 m d => lit_header is8 m (lenN d) ++ d end.
Definition dump (l : list op) : bytes := flat_map dump_op l.

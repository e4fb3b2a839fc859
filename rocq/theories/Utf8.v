(** UTF-8 validity: Rust's [core::str::from_utf8] succeeds exactly on these strings
    (Unicode 15, table 3-7). The standard library is not part of /repo. *)

From Verif Require Import Bytes.

Definition cont (b : byte) : bool := inb 0x80 0xbf b.

Fixpoint utf8_ok (s : bytes) : bool :=
  match s with
  | [] => true
  | a :: s1 =>
    if inb 0x00 0x7f a then utf8_ok s1
    else match s1 with
    | [] => false
    | b :: s2 =>
      if inb 0xc2 0xdf a then cont b && utf8_ok s2
      else match s2 with
      | [] => false
      | c :: s3 =>
        if inb 0xe0 0xe0 a then inb 0xa0 0xbf b && cont c && utf8_ok s3
        else if inb 0xe1 0xec a || inb 0xee 0xef a then cont b && cont c && utf8_ok s3
        else if inb 0xed 0xed a then inb 0x80 0x9f b && cont c && utf8_ok s3
        else match s3 with
        | [] => false
        | d :: s4 =>
          if inb 0xf0 0xf0 a then inb 0x90 0xbf b && cont c && cont d && utf8_ok s4
          else if inb 0xf1 0xf3 a then cont b && cont c && cont d && utf8_ok s4
          else if inb 0xf4 0xf4 a then inb 0x80 0x8f b && cont c && cont d && utf8_ok s4
          else false
        end
      end
    end
  end.

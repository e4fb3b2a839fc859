(** RFC 4648 base64 with padding: [base64::engine::general_purpose::STANDARD] of the base64
    0.22 crate (not part of /repo). Decoding is strict: canonical padding is required and
    the unused bits of the last symbol must be zero (the crate's defaults
    [DecodePaddingMode::RequireCanonical], [decode_allow_trailing_bits = false]). *)

From Verif Require Import Bytes.
Open Scope N_scope.

Definition b64_alphabet : bytes :=
  bs "ABCDEFGHIJKLMNOPQRSTUVWXYZabcdefghijklmnopqrstuvwxyz0123456789+/".

(** The symbol for a 6-bit value. *)
Definition b64_sym (n : N) : byte := nth (N.to_nat n) b64_alphabet x3d.

(** The value of a symbol. *)
Definition b64_val (c : byte) : option N :=
  if inb 0x41 0x5a c then Some (bN c - 65)
  else if inb 0x61 0x7a c then Some (bN c - 71)
  else if inb 0x30 0x39 c then Some (bN c + 4)
  else if beq c "+"%byte then Some 62
  else if beq c "/"%byte then Some 63
  else None.

Definition byte_of (n : N) : byte :=
  match Byte.of_N n with Some b => b | None => x00 end.

Fixpoint b64_encode (s : bytes) : bytes :=
  match s with
  | a :: b :: c :: s' =>
    let n := bN a * 65536 + bN b * 256 + bN c in
    b64_sym (n / 262144) :: b64_sym (n / 4096 mod 64) :: b64_sym (n / 64 mod 64)
      :: b64_sym (n mod 64) :: b64_encode s'
  | [a; b] =>
    let n := bN a * 65536 + bN b * 256 in
    [b64_sym (n / 262144); b64_sym (n / 4096 mod 64); b64_sym (n / 64 mod 64); "="%byte]
  | [a] =>
    let n := bN a * 65536 in
    [b64_sym (n / 262144); b64_sym (n / 4096 mod 64); "="%byte; "="%byte]
  | [] => []
  end.

Definition b64_pad : byte := "="%byte.

Fixpoint b64_decode (s : bytes) : option bytes :=
  match s with
  | [] => Some []
  | c1 :: c2 :: c3 :: c4 :: s' =>
    match b64_val c1, b64_val c2 with
    | Some v1, Some v2 =>
      match b64_val c3, b64_val c4 with
      | Some v3, Some v4 =>
        let n := v1 * 262144 + v2 * 4096 + v3 * 64 + v4 in
        match b64_decode s' with
        | Some r => Some (byte_of (n / 65536) :: byte_of (n / 256 mod 256)
                            :: byte_of (n mod 256) :: r)
        | None => None
        end
      | Some v3, None =>
        match s' with
        | [] =>
          if beq c4 b64_pad && N.eqb (v3 mod 4) 0 then
            let n := v1 * 262144 + v2 * 4096 + v3 * 64 in
            Some [byte_of (n / 65536); byte_of (n / 256 mod 256)]
          else None
        | _ => None
        end
      | None, _ =>
        match s' with
        | [] =>
          if beq c3 b64_pad && beq c4 b64_pad && N.eqb (v2 mod 16) 0 then
            let n := v1 * 262144 + v2 * 4096 in
            Some [byte_of (n / 65536)]
          else None
        | _ => None
        end
      end
    | _, _ => None
    end
  | _ => None
  end.

(** Decimal printing and parsing of unsigned numbers.

    Rust's [Display] for [u32]/[u64]/[usize] and [str::parse] of digit strings.
    Uses the standard library's decimal numerals ([N.to_uint], [N.of_uint]). *)

From Verif Require Import Bytes.
From Coq Require Import Decimal DecimalFacts DecimalN DecimalPos.

Fixpoint uint_bytes (u : uint) : bytes :=
  match u with
  | Nil => []
  | D0 u => "0"%byte :: uint_bytes u
  | D1 u => "1"%byte :: uint_bytes u
  | D2 u => "2"%byte :: uint_bytes u
  | D3 u => "3"%byte :: uint_bytes u
  | D4 u => "4"%byte :: uint_bytes u
  | D5 u => "5"%byte :: uint_bytes u
  | D6 u => "6"%byte :: uint_bytes u
  | D7 u => "7"%byte :: uint_bytes u
  | D8 u => "8"%byte :: uint_bytes u
  | D9 u => "9"%byte :: uint_bytes u
  end.

(** [format!("{}", n)] *)
Definition dec (n : N) : bytes := uint_bytes (N.to_uint n).

Fixpoint bytes_uint (s : bytes) : option uint :=
  match s with
  | [] => Some Nil
  | c :: s' =>
    match bytes_uint s' with
    | None => None
    | Some u =>
      match c with
      | "0"%byte => Some (D0 u) | "1"%byte => Some (D1 u)
      | "2"%byte => Some (D2 u) | "3"%byte => Some (D3 u)
      | "4"%byte => Some (D4 u) | "5"%byte => Some (D5 u)
      | "6"%byte => Some (D6 u) | "7"%byte => Some (D7 u)
      | "8"%byte => Some (D8 u) | "9"%byte => Some (D9 u)
      | _ => None
      end
    end
  end.

(** Mathematical value of a string of ASCII digits (None: empty, or not digits). *)
Definition undec (s : bytes) : option N :=
  match s with
  | [] => None
  | _ => option_map N.of_uint (bytes_uint s)
  end.

(** [str::parse::<uN>] on a string of digits, [max = uN::MAX]. The step-wise overflow
    check of Rust is replaced by one check of the mathematical value. *)
Definition parse_max (max : N) (s : bytes) : option N :=
  match undec s with
  | Some n => if N.leb n max then Some n else None
  | None => None
  end.

(** [Display] (to_string) of the errors of imap-types.

    [thiserror] makes [Display] from the [#\[error\]] attributes; the texts below are these attributes. The error of a
    constructor with several arguments is [BadArg i e] (Ctors.v); its text starts with the text of the [i]-th variant of the
    constructor's error type. *)

From Verif Require Import Bytes Dec Types Ctors.

(** [format!("{:02x}", b)] *)
Definition hex_byte (b : byte) : bytes := [hex_digit (bN b / 16); hex_digit (bN b mod 16)].
(** error.rs:21-31 [ValidationErrorKind] *)
Definition verror_kind_str (e : verror) : bytes :=
  match e with
  | VEmpty => bs "Must not be empty"
  | VNotEnough min => bs "Must have at least " ++ dec (N.of_nat min) ++ bs " elements"
  | VInvalid => bs "Invalid value"
  | VInvalidByteAt b at_ => bs "Invalid byte b'\x" ++ hex_byte b ++ bs "' at index " ++ dec (N.of_nat at_)
  end.
(** error.rs:15-19 [ValidationError] *)
Definition verror_str (e : verror) : bytes := bs "Validation failed: " ++ verror_kind_str e.

(** The texts of the variants of an error type, in the order of the arguments *)
Definition variants := list bytes.
(** The error is that of the only argument *)
Definition plain_error : variants := [bs ""].
(* command.rs:1897-1903 *)
Definition login_error : variants := [bs "Invalid username: "; bs "Invalid password: "].
(* command.rs:1905-1911 *)
Definition rename_error : variants := [bs "Invalid (from) mailbox: "; bs "Invalid (to) mailbox: "].
(* command.rs:1913-1919 *)
Definition list_error : variants := [bs "Invalid reference: "; bs "Invalid mailbox: "].
(* command.rs:1921-1927 *)
Definition append_error : variants := [bs "Invalid mailbox: "; bs "Invalid data: "].
(* command.rs:1929-1935 *)
Definition copy_error : variants := [bs "Invalid sequence: "; bs "Invalid mailbox: "].
(* extensions/move.rs:33-39 *)
Definition move_error : variants := [bs "Invalid sequence: "; bs "Invalid mailbox: "].
(* extensions/quota.rs:262-268 *)
Definition quota_error : variants := [bs "Invalid root: "; bs "Invalid quotas: "].
(* extensions/quota.rs:270-276 *)
Definition quota_root_error : variants := [bs "Invalid mailbox: "; bs "Invalid roots: "].
(* extensions/quota.rs:278-284 *)
Definition set_quota_error : variants := [bs "Invalid root: "; bs "Invalid quota set: "].
(* extensions/namespace.rs:102-110; not used by a modelled constructor *)
Definition namespace_error : variants :=
  [bs "Invalid personal namespace: "; bs "Invalid other namespace: "; bs "Invalid shared namespace: "].
Definition all_variants : list variants :=
  [plain_error; login_error; rename_error; list_error; append_error; copy_error; move_error; quota_error; quota_root_error;
   set_quota_error; namespace_error].

(** [error.to_string()] of what a constructor returned; [None]: there is no error (or no such variant) *)
Definition error_str {A} (v : variants) (r : built A) : option bytes :=
  match r with
  | BadArg i e => option_map (fun t => t ++ verror_str e) (nth_error v i)
  | _ => None
  end.

(** [Display] for [i32] *)
Definition int_str (z : Z) : bytes := if Z.ltb z 0 then bs "-" ++ dec (Z.abs_N z) else dec (Z.abs_N z).
(** datetime.rs:168-182 [DateTimeError] and [NaiveDateError] *)
Definition date_error_str (e : date_error) : bytes :=
  match e with
  | YearOutOfRange got => bs "expected `0 <= year <= 9999`, got " ++ int_str got
  | UnalignedNanoSeconds got => bs "expected `nanos == 0`, got " ++ dec got
  | UnalignedOffset got => bs "expected `offset % 60 == 0`, got " ++ int_str got
  end.
(** response.rs:1295-1301 [ContinueError]: the outer [None] of [continue_basic_new] is [Ambiguity] *)
Definition continue_error_str {A} (r : built (option A)) : option bytes :=
  match r with
  | BadArg _ _ => Some (bs "invalid text")
  | Built None => Some (bs "ambiguity detected")
  | _ => None
  end.
(** mailbox.rs:276-282 [MailboxOtherError]: [None] is [Reserved]; the other variant is transparent *)
Definition mailbox_other_error_str {A} (r : conv (option A)) : option bytes :=
  match r with
  | CErr e => Some (verror_str e)
  | COk None => Some (bs "Reserved: Please use one of the typed variants")
  | _ => None
  end.
(** The derived [Debug] of [ValidationError], error.rs:10-31 *)
Definition verror_debug (e : verror) : bytes :=
  bs "ValidationError { kind: " ++
  match e with
  | VEmpty => bs "Empty"
  | VNotEnough min => bs "NotEnough { min: " ++ dec (N.of_nat min) ++ bs " }"
  | VInvalid => bs "Invalid"
  | VInvalidByteAt b at_ => bs "InvalidByteAt { byte: " ++ dec (bN b) ++ bs ", at: " ++ dec (N.of_nat at_) ++ bs " }"
  end ++ bs " }".
(** response.rs:1303-1309 [FetchError], with [{0:?}]; the first argument is a number, and [TryFromIntError] of the standard
    library is a tuple struct of [()]. *)
Definition fetch_error_str {A} (r : built A) : option bytes :=
  match r with
  | BadArg O _ => Some (bs "Invalid sequence or UID: TryFromIntError(())")
  | BadArg _ e => Some (bs "Invalid items: " ++ verror_debug e)
  | _ => None
  end.

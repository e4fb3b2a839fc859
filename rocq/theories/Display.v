(** imap-types extensions/thread.rs:29-91: [Display for Thread], as it is written: a loop with a
    stack of iterators. [to_string] of the other types is in Conv.v. *)

From Verif Require Import Bytes Dec Types.

(** thread.rs:82-91 [write_prefix]; [split_first().unwrap()] panics on an empty list *)
Definition write_prefix (prefix : list N) : option bytes :=
  match prefix with
  | [] => None
  | head :: tail => Some (dec head ++ flat_map (fun e => bSP :: dec e) tail)
  end.
(** What is printed for a thread up to its answers, and the iterator over the answers,
    thread.rs:33-47 and 51-67 *)
Definition opens (t : thread) : option (bytes * list thread) :=
  match t with
  | TMembers prefix answers =>
    match write_prefix prefix, answers with
    | None, _ => None
    | Some p, Some l => Some (bs "(" ++ p ++ bs " ", l)
    | Some p, None => Some (bs "(" ++ p, [])
    end
  | TNested l => Some (bs "(", l)
  end.
(** The loop, thread.rs:49-76: the stack of iterators (the last one first), what is printed, and
    how it ends. *)
Inductive prints : list (list thread) -> option bytes -> Prop :=
| prints_end : prints [] (Some [])
| prints_pop stack out : prints stack out -> prints ([] :: stack) (option_map (app (bs ")")) out)
| prints_push t answers stack o l out :
    opens t = Some (o, l) -> prints (l :: answers :: stack) out ->
    prints ((t :: answers) :: stack) (option_map (app o) out)
| prints_panic t answers stack : opens t = None -> prints ((t :: answers) :: stack) None.
(** thread.rs:30-79 *)
Inductive thread_prints (t : thread) : option bytes -> Prop :=
| thread_prints_loop o l out :
    opens t = Some (o, l) -> prints [l] out -> thread_prints t (option_map (app o) out)
| thread_prints_panic : opens t = None -> thread_prints t None.

(** The numbers of a message, and what it means to read them off a text.

    Written without the decoder: it uses the data types and [digits] of ValueSpec.v. *)

From Verif Require Import Bytes Features Nom Types ValueSpec.
Open Scope N_scope.

(** A number with the smallest and the largest value of its Rust type. *)
Record number := mkNumber { num_min : N; num_max : N; num_value : N }.
Definition u32 := mkNumber 0 u32_max.       (* u32 *)
Definition nz32 := mkNumber 1 u32_max.      (* NonZeroU32 *)
Definition u64 := mkNumber 0 u64_max.       (* u64 *)
Definition nz64 := mkNumber 1 u64_max.      (* NonZeroU64 *)

Definition is_a_digit (b : byte) : Prop := 0x30 <= bN b <= 0x39.
Definition starts_with_digit (t : bytes) : Prop := exists b u, t = b :: u /\ is_a_digit b.
Definition ends_with_digit (t : bytes) : Prop := exists u b, t = u ++ [b] /\ is_a_digit b.

(** [reads t l]: the numbers [l] stand in the text [t], in this order and without overlap. Each is
    the value of a whole run of digits (no digit stands right before or after it) and in the range
    of its type. With quirk_rectify_numbers, a number may be zero for a run after a minus sign. *)
Inductive reads {F : features} : bytes -> list number -> Prop :=
| reads_end t : reads t []
| reads_number x d y n l :
    ~ ends_with_digit x -> d <> [] -> digits d (num_value n) -> ~ starts_with_digit y ->
    num_min n <= num_value n <= num_max n -> reads y l ->
    reads (x ++ d ++ y) (n :: l)
| reads_negative x d y v l :
    quirk_rectify_numbers = true ->
    d <> [] -> digits d v -> ~ starts_with_digit y -> reads y l ->
    reads (x ++ bs "-" ++ d ++ y) (u32 0 :: l).

(** ** The numbers of each type, in the order in which they are written *)
Definition opt_numbers {A} (f : A -> list number) (o : option A) : list number :=
  match o with Some a => f a | None => [] end.

Definition seq_or_uid_numbers (s : seq_or_uid) : list number :=
  match s with SValue n => [nz32 n] | SAsterisk => [] end.
Definition sequence_numbers (s : sequence) : list number :=
  match s with
  | SSingle a => seq_or_uid_numbers a
  | SRange a b => seq_or_uid_numbers a ++ seq_or_uid_numbers b
  end.
Definition set_numbers : sequence_set -> list number := flat_map sequence_numbers.
Definition sets_numbers (p : sequence_set * sequence_set) : list number :=
  set_numbers (fst p) ++ set_numbers (snd p).
Definition uid_element_numbers (u : uid_element) : list number :=
  match u with UESingle n => [nz32 n] | UERange a b => [nz32 a; nz32 b] end.
Definition uid_set_numbers : uid_set -> list number := flat_map uid_element_numbers.

Fixpoint key_numbers (k : search_key) : list number :=
  match k with
  | KAnd l => flat_map key_numbers l
  | KSequenceSet s | KUid s => set_numbers s
  | KLarger n | KSmaller n => [u32 n]
  | KNot k => key_numbers k
  | KOr a b => key_numbers a ++ key_numbers b
  | KModSequence _ n => [u64 n]
  | _ => []
  end.
Definition keys_numbers : list search_key -> list number := flat_map key_numbers.

Definition status_item_numbers (s : status_data_item) : list number :=
  match s with
  | SIMessages n | SIRecent n | SIUnseen n | SIDeleted n => [u32 n]
  | SIUidNext n | SIUidValidity n => [nz32 n]
  | SIDeletedStorage n | SIHighestModSeq n => [u64 n]
  end.

Definition part_numbers : list N -> list number := map nz32.
Definition section_numbers (s : section) : list number :=
  match s with
  | SecPart p | SecMime p => part_numbers p
  | SecHeader p | SecHeaderFields p _ | SecHeaderFieldsNot p _ | SecText p =>
    opt_numbers part_numbers p
  end.
Definition partial_numbers (p : N * N) : list number := [u32 (fst p); nz32 (snd p)].
Definition item_numbers (i : item_name) : list number :=
  match i with
  | INBodyExt s p _ => opt_numbers section_numbers s ++ opt_numbers partial_numbers p
  | INBinary s p _ => part_numbers s ++ opt_numbers partial_numbers p
  | INBinarySize s => part_numbers s
  | _ => []
  end.
Definition macro_or_items_numbers (m : macro_or_items) : list number :=
  match m with MIMacro _ => [] | MIItems l => flat_map item_numbers l end.

Definition quota_set_numbers (q : quota_set) : list number := [u64 (qs_limit q)].
Definition quota_get_numbers (q : quota_get) : list number := [u64 (qg_usage q); u64 (qg_limit q)].
Definition select_numbers (s : select_parameter) : list number :=
  match s with
  | SPCondStore => []
  | SPQResync v m s d => [nz32 v; nz64 m] ++ opt_numbers set_numbers s ++ opt_numbers sets_numbers d
  end.
Definition fetch_modifier_numbers (m : fetch_modifier) : list number :=
  match m with FMChangedSince n => [nz64 n] | FMVanished => [] end.
Definition store_modifier_numbers (m : store_modifier) : list number :=
  match m with SMUnchangedSince n => [u64 n] end.
Definition metadata_option_numbers (o : get_metadata_option) : list number :=
  match o with GMMaxSize n => [u32 n] | GMDepth _ => [] end.

Definition body_numbers (c : command_body) : list number :=
  match c with
  | CSelect _ l | CExamine _ l => flat_map select_numbers l
  | CExpungeUid s | CCopy s _ _ | CMove s _ _ => set_numbers s
  | CSearch _ l _ | CSort _ _ l _ | CThread _ _ l _ => keys_numbers l
  | CFetch s i _ l => set_numbers s ++ macro_or_items_numbers i ++ flat_map fetch_modifier_numbers l
  | CStore s _ _ _ _ l => set_numbers s ++ flat_map store_modifier_numbers l
  | CSetQuota _ l => flat_map quota_set_numbers l
  | CGetMetadata l _ _ => flat_map metadata_option_numbers l
  | _ => []
  end.
Definition command_numbers (c : command) : list number := body_numbers (cmd_body c).

Fixpoint extension_numbers (b : body_extension) : list number :=
  match b with
  | BENString _ => []
  | BENumber n => [u32 n]
  | BEList l => flat_map extension_numbers l
  end.
Definition location_numbers (l : location) : list number :=
  flat_map extension_numbers (loc_extensions l).
Definition language_numbers (l : language) : list number :=
  opt_numbers location_numbers (lang_tail l).
Definition disposition_numbers (d : disposition) : list number :=
  opt_numbers language_numbers (disp_tail d).
Definition single_ext_numbers (e : single_ext) : list number :=
  opt_numbers disposition_numbers (se_tail e).
Definition multi_ext_numbers (e : multi_ext) : list number :=
  opt_numbers disposition_numbers (me_tail e).
Fixpoint structure_numbers (b : body_structure) : list number :=
  match b with
  | BSSingle f s x =>
    [u32 (bf_size f)] ++
    match s with
    | SFBasic _ _ => []
    | SFMessage _ b n => structure_numbers b ++ [u32 n]
    | SFText _ n => [u32 n]
    end ++ opt_numbers single_ext_numbers x
  | BSMulti l _ x => flat_map structure_numbers l ++ opt_numbers multi_ext_numbers x
  end.
Definition fetched_numbers (m : message_data_item) : list number :=
  match m with
  | MDBody b | MDBodyStructure b => structure_numbers b
  | MDBodyExt s o _ => opt_numbers section_numbers s ++ opt_numbers (fun n => [u32 n]) o
  | MDRfc822Size n => [u32 n]
  | MDUid n => [nz32 n]
  | MDBinary s _ => part_numbers s
  | MDBinarySize s n => part_numbers s ++ [u32 n]
  | MDModSeq n => [nz64 n]
  | _ => []
  end.
Fixpoint thread_numbers (t : thread) : list number :=
  match t with
  | TMembers p a => map nz32 p ++ match a with Some l => flat_map thread_numbers l | None => [] end
  | TNested l => flat_map thread_numbers l
  end.
Definition data_numbers (d : data) : list number :=
  match d with
  | DStatus _ l => flat_map status_item_numbers l
  | DSearch l m | DSort l m => map nz32 l ++ opt_numbers (fun n => [nz64 n]) m
  | DThread l => flat_map thread_numbers l
  | DExists n | DRecent n => [u32 n]
  | DExpunge n => [nz32 n]
  | DFetch n l => nz32 n :: flat_map fetched_numbers l
  | DQuota _ l => flat_map quota_get_numbers l
  | DVanished _ s => set_numbers s
  | _ => []
  end.
Definition resp_code_numbers (c : code) : list number :=
  match c with
  | CdUidNext n | CdUidValidity n | CdUnseen n => [nz32 n]
  | CdMetadata (MCLongEntries n) | CdMetadata (MCMaxSize n) => [u32 n]
  | CdAppendUid v u => [nz32 v; nz32 u]
  | CdCopyUid v s d => nz32 v :: uid_set_numbers s ++ uid_set_numbers d
  | CdHighestModSeq n => [nz64 n]
  | CdModified s => set_numbers s
  | _ => []
  end.
Definition response_numbers (r : response) : list number :=
  match r with
  | RContinue (CRBasic c _) => opt_numbers resp_code_numbers c
  | RContinue (CRBase64 _) => []
  | RData d => data_numbers d
  | RStatus (StUntagged b) | RStatus (StTagged _ b) => opt_numbers resp_code_numbers (sb_code b)
  | RStatus (StBye c _) => opt_numbers resp_code_numbers c
  end.
Definition greeting_numbers (g : greeting) : list number := opt_numbers resp_code_numbers (gr_code g).

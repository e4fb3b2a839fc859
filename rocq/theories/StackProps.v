(** C67: how much stack the decoders of commands and responses need. *)

From Verif Require Import Bytes BytesFacts Dec Features Nom Types Utf8 Conv
  ParserFacts ParseCore ParseBody ParseCmd ParseResp Decode DecodeProps OkBody Fragmentizer FragSpec FragProps Stack StackFacts.
Open Scope nat_scope.

Section Props.
Context {F : features}.

(** Ten nested calls are enough for every command *)
Theorem C67_command_stack d i : 10 <= d -> decode_command_within d i = decode_command i.
Proof.
  intros L. unfold decode_command_within, decode_command. now rewrite (s_command_enough d L i).
Qed.
(** Sixteen, and six more for every 77 bytes, are enough for every response *)
Theorem C67_response_stack d i : 16 + 6 * length i / 77 <= d ->
  decode_response_within d i = decode_response i.
Proof.
  intros L. unfold decode_response_within, decode_response.
  rewrite (s_response_enough d (S (length i))); [reflexivity | lia | | lia].
  intros j Lj. unfold p_body. apply (s_body_enough d (S (length j))); try lia.
  right. pose proof (Nat.div_mod (6 * length i) 77). pose proof (Nat.mod_upper_bound (6 * length i) 77). lia.
Qed.

(** *** Inputs that need so much *)

(** Up to [D] nested calls are not enough *)
Definition exhausts (D n : nat) (x : bytes) : Prop := forall d, d <= D -> s_body d n x = RPanic.

Definition opener (n : nat) : bytes := repeat "("%byte n.
Definition message_start : bytes :=
  bs "(""MESSAGE"" ""RFC822"" () """" """" """" 0 ("""" """" NIL NIL NIL NIL NIL NIL """" """") ".
Definition extended_part : bytes := bs "("""" """" () """" """" """" 0 """" NIL """" """" ((((((((".

Lemma bind_ok {A B} (p : parser A) (f : A -> parser B) i r a : p i = ROk r a -> bind p f i = f a r.
Proof. intros H. unfold bind. now rewrite H. Qed.
Lemma bind_panic {A B} (p : parser A) (f : A -> parser B) i : p i = RPanic -> bind p f i = RPanic.
Proof. intros H. unfold bind. now rewrite H. Qed.
Lemma alt_skip {A} (p q : parser A) ps i :
  p i = RErr -> alt (q :: ps) i = RPanic -> alt (p :: q :: ps) i = RPanic.
Proof. intros H1 H2. cbn [alt] in *. unfold orp at 1. now rewrite H1. Qed.
Lemma alt_panic {A} (p : parser A) ps i : p i = RPanic -> alt (p :: ps) i = RPanic.
Proof. intros H. cbn [alt]. destruct ps; [exact H |]. unfold orp. now rewrite H. Qed.

Lemma exhausts_open D n x : exhausts D (S n) ("("%byte :: x) ->
  exhausts (S D) (S (S n)) ("("%byte :: "("%byte :: x).
Proof.
  intros H [| d] L; [reflexivity |]. specialize (H d ltac:(lia)). cbn [s_body].
  unfold delimited. erewrite bind_ok; [| reflexivity]. apply bind_panic.
  apply alt_skip.
  { destruct F as [? ? ? ? [] ? ? ? ? ? ? ? ? ? ? ? ? ? ? ? ?]; reflexivity. }
  apply alt_panic. unfold s_body_type_mpart.
  apply bind_panic. unfold vec1, vecn, expect. apply bind_panic. unfold many1. now apply bind_panic.
Qed.
Lemma exhausts_message D n x : exhausts D 7 x -> exhausts (S D) (S (S n)) (message_start ++ x).
Proof.
  intros H [| d] L; [reflexivity |]. specialize (H d ltac:(lia)). cbn [s_body].
  unfold delimited. erewrite bind_ok; [| reflexivity]. apply bind_panic.
  apply alt_panic. unfold s_body_type_1part. apply bind_panic. apply alt_panic.
  unfold p_body_type_msg, p_media_message.
  erewrite bind_ok; [| lazy; reflexivity].
  erewrite bind_ok; [| lazy; reflexivity].
  erewrite bind_ok.
  2:{ destruct F as [? ? ? ? [] ? ? ? ? [] ? ? ? ? ? ? ? ? [] ? ?]; lazy; reflexivity. }
  erewrite bind_ok; [| lazy; reflexivity].
  erewrite bind_ok.
  2:{ destruct F as [? ? ? ? [] ? ? ? ? ? ? ? ? ? ? ? [] ? ? ? ?]; lazy; reflexivity. }
  erewrite bind_ok; [| lazy; reflexivity].
  apply bind_panic. exact H.
Qed.
Lemma exhausts_part : exhausts 9 2 extended_part.
Proof.
  intros d L. destruct d as [|[|[|[|[|[|[|[|[|[| d]]]]]]]]]]; [.. | lia];
    (destruct F as [? ? ? ? [] ? ? ? ? [] ? ? ? ? ? ? ? ? [] ? ?]; vm_compute; reflexivity).
Qed.

(** [deep m]: a multipart nested six times around a message, itself around a multipart nested five
    times around a message and so on, [m] messages in all, and then a part whose extension data is
    nested eight times. *)
Fixpoint deep (k m : nat) : bytes :=
  opener k ++ match m with O => extended_part | S m' => message_start ++ deep 5 m' end.
Lemma length_deep m : forall k, length (deep k m) = k + 77 * m + length extended_part.
Proof.
  induction m as [| m IH]; intros k; cbn [deep]; rewrite app_length; unfold opener; rewrite repeat_length;
    [lia |]. rewrite app_length, IH. change (length message_start) with 72. lia.
Qed.
Lemma exhausts_opener x : forall k D n, exhausts D (S n) ("("%byte :: x) ->
  exhausts (k + D) (k + S n) (opener k ++ "("%byte :: x).
Proof.
  induction k as [| k IH]; intros D n H; [exact H |]. specialize (IH D n H).
  cbn [opener repeat app Nat.add]. change (repeat "("%byte k) with (opener k).
  replace (k + S n) with (S (k + n)) in * by lia.
  destruct k as [| k]; apply exhausts_open; exact IH.
Qed.
Lemma exhausts_deep m : forall k, exhausts (k + 6 * m + 9) (k + 2) (deep k m).
Proof.
  induction m as [| m IH]; intros k.
  - replace (k + 6 * 0 + 9) with (k + 9) by lia. apply (exhausts_opener (tl extended_part)).
    exact exhausts_part.
  - replace (k + 6 * S m + 9) with (k + S (5 + 6 * m + 9)) by lia. cbn [deep].
    apply (exhausts_opener (tl message_start ++ deep 5 m)).
    apply (exhausts_message _ 0). apply (IH 5).
Qed.

Definition deep_response (m : nat) : bytes := bs "* 1 FETCH (BODY " ++ deep 6 m.
Lemma response_exhausts d x : s_body d 8 x = RPanic -> s_response d (bs "* 1 FETCH (BODY " ++ x) = RPanic.
Proof.
  intros H. unfold s_response.
  apply alt_skip; [destruct quirk_empty_continue_req; reflexivity |].
  apply alt_skip; [reflexivity |]. apply alt_panic. unfold s_response_data, delimited.
  erewrite bind_ok; [| reflexivity]. apply bind_panic.
  apply alt_skip; [reflexivity |]. apply alt_skip; [reflexivity |].
  apply alt_skip.
  { destruct F as [? ? [] [] ? ? ? ? ? ? ? ? ? ? ? ? ? ? ? ? ?]; reflexivity. }
  apply alt_panic. apply bind_panic. apply alt_panic. erewrite bind_ok; [| lazy; reflexivity].
  apply alt_skip; [reflexivity |]. apply alt_panic. apply bind_panic.
  erewrite bind_ok; [| lazy; reflexivity]. unfold s_msg_att, delimited.
  erewrite bind_ok; [| lazy; reflexivity]. apply bind_panic. unfold vec1, vecn, expect. apply bind_panic.
  unfold sep_list1. apply bind_panic.
  apply alt_skip; [destruct F as [[] ? ? ? ? ? ? ? ? ? ? ? ? ? ? ? ? ? ? ? ?]; reflexivity |]. apply alt_panic.
  unfold s_msg_att_static. do 7 (apply alt_skip; [reflexivity |]). apply alt_panic.
  apply bind_panic. erewrite bind_ok; [| lazy; reflexivity]. exact H.
Qed.

Lemma search_open d n x : s_search_key d n x = RPanic -> s_search_key (S d) (S n) ("("%byte :: x) = RPanic.
Proof.
  intros H. cbn [s_search_key].
  do 35 (apply alt_skip; [reflexivity |]).
  apply alt_skip; [destruct F as [[] ? ? ? [] ? ? ? ? ? ? ? ? ? ? ? ? ? ? ? ?]; reflexivity |].
  apply alt_skip; [destruct F as [? ? ? ? ? ? ? ? ? ? ? ? ? ? ? ? ? ? ? [] ?]; reflexivity |].
  apply alt_panic, bind_panic. unfold vec1, vecn, expect. apply bind_panic. unfold delimited.
  erewrite bind_ok; [| lazy; reflexivity]. apply bind_panic. unfold sep_list1. now apply bind_panic.
Qed.
Lemma search_exhausts x : forall d n, d <= n -> s_search_key d n (opener d ++ x) = RPanic.
Proof.
  induction d as [| d IH]; intros n L; [reflexivity |]. destruct n as [| n]; [lia |].
  apply search_open. apply IH. lia.
Qed.
Lemma command_exhausts d x : s_search_key d 9 ("("%byte :: x) = RPanic ->
  s_command d (bs "a SEARCH (" ++ x) = RPanic.
Proof.
  intros H. unfold s_command. erewrite bind_ok; [| lazy; reflexivity].
  assert (E : s_command_body d (bs "SEARCH (" ++ x) = RPanic).
  { unfold s_command_body, terminated. apply bind_panic.
    apply alt_skip; [destruct F as [? [] ? ? ? ? ? ? ? ? ? ? ? ? ? ? ? ? ? ? ?]; reflexivity |].
    apply alt_skip; [destruct F as [[] [] [] [] [] ? ? [] ? ? ? ? ? ? ? ? ? ? ? ? ?]; reflexivity |].
    apply alt_skip; [destruct F as [? ? ? ? ? ? ? [] ? ? ? ? ? ? ? ? ? ? ? ? ?]; reflexivity |].
    unfold s_command_select. do 8 (apply alt_skip; [reflexivity |]). apply alt_panic. unfold s_search.
    erewrite bind_ok; [| lazy; reflexivity]. erewrite bind_ok; [| lazy; reflexivity].
    erewrite bind_ok; [| lazy; reflexivity]. apply bind_panic. unfold s_search_keys, vec1, vecn, expect.
    apply bind_panic. unfold sep_list1. now apply bind_panic. }
  cbn [app] in E. unfold pmap. erewrite bind_panic; [reflexivity | exact E].
Qed.

(** Fewer than ten nested calls are not enough for commands, so ten is what commands need. *)
Theorem C67_command_stack_needed d : (exists i, decode_command_within d i = Panic) <-> d < 10.
Proof.
  split.
  - intros [i H]. destruct (le_lt_dec 10 d) as [L | L]; [| exact L]. exfalso.
    rewrite C67_command_stack in H by exact L. now apply (C20_no_panic i) in H.
  - intros L. exists (bs "a SEARCH ((((((((("). unfold decode_command_within.
    change (bs "a SEARCH (((((((((") with (bs "a SEARCH (" ++ opener 8).
    rewrite command_exhausts; [reflexivity |]. change ("("%byte :: opener 8) with (opener 9).
    replace (opener 9) with (opener d ++ opener (9 - d))
      by (unfold opener; rewrite <- repeat_app; f_equal; lia).
    apply search_exhausts. lia.
Qed.
(** For responses no amount is enough: with [m] embedded messages, in [77 * m + 64] bytes, up to
    [15 + 6 * m] nested calls are used up. *)
Theorem C67_response_stack_needed m d : d <= 15 + 6 * m ->
  length (deep_response m) = 77 * m + 64 /\ decode_response_within d (deep_response m) = Panic.
Proof.
  intros L. split.
  - unfold deep_response. rewrite app_length, length_deep.
    change (length (bs "* 1 FETCH (BODY ")) with 16. change (length extended_part) with 42. lia.
  - unfold decode_response_within, deep_response. rewrite response_exhausts; [reflexivity |].
    apply (exhausts_deep m 6). lia.
Qed.
(** A limit on the size of messages is a limit on the stack, and the only one there is. *)
Theorem C67_response_stack_size size d : 16 + 6 * size / 77 <= d ->
  forall i, length i <= size -> decode_response_within d i = decode_response i.
Proof.
  intros L i Li. apply C67_response_stack. pose proof (Nat.div_le_mono (6 * length i) (6 * size) 77). lia.
Qed.
Theorem C67_response_stack_unbounded d : exists i, decode_response_within d i = Panic.
Proof. exists (deep_response d). apply (C67_response_stack_needed d d). lia. Qed.
(** A fragmentizer with a limit keeps the stack bounded whatever the peer sends, and never loses the
    process. *)
Theorem C67_fragmentizer size d ops : 16 + 6 * size / 77 <= d ->
  let s := fst (run (frag_new (Some (N.of_nat size))) ops) in
  decode_message (decode_response_within d) s = decode_message decode_response s /\
  decode_message (decode_command_within d) s = decode_message decode_command s /\
  decode_message (decode_response_within d) s <> DMPanic /\
  decode_message (decode_command_within d) s <> DMPanic.
Proof.
  intros L s.
  assert (Lb : length (buffer s) <= size).
  { destruct (C04_limit (N.of_nat size) ops) as [Lb _]. unfold lenN, message_bytes in Lb. fold s in Lb. lia. }
  assert (E : decode_message (decode_response_within d) s = decode_message decode_response s).
  { unfold decode_message. now rewrite (C67_response_stack_size size d L _ Lb). }
  assert (E' : decode_message (decode_command_within d) s = decode_message decode_command s).
  { unfold decode_message. rewrite C67_command_stack by lia. reflexivity. }
  split; [exact E |]. split; [exact E' |]. rewrite E, E'. pose proof (C20_no_panic (buffer s)) as (P1 & P2 & _).
  unfold decode_message. destruct (exceeded s), (poisoned s); try (split; discriminate).
  split.
  - destruct (decode_response (buffer s)) as [[|] | |]; congruence.
  - destruct (decode_command (buffer s)) as [[|] | |]; congruence.
Qed.
End Props.

Print Assumptions C67_command_stack.
Print Assumptions C67_command_stack_needed.
Print Assumptions C67_response_stack.
Print Assumptions C67_response_stack_size.
Print Assumptions C67_response_stack_needed.
Print Assumptions C67_response_stack_unbounded.
Print Assumptions C67_fragmentizer.

(** *** Concrete cases *)

Definition nested_search : bytes := bs "a SEARCH ((((((((ALL))))))))" ++ bCR :: bLF :: [].
(** The deepest command that decodes: it needs nine nested calls. *)
Example C67_search_9 : exists c, @decode_command_within default_features 9 nested_search = Decoded [] c.
Proof. eexists. vm_compute. reflexivity. Qed.
Example C67_search_8 : @decode_command_within default_features 8 nested_search = Panic.
Proof. vm_compute. reflexivity. Qed.
Example C67_search_10 :
  @decode_command_within default_features 10 nested_search = @decode_command default_features nested_search.
Proof. exact (@C67_command_stack default_features 10 nested_search (le_n 10)). Qed.
(** With two embedded messages: 218 bytes, for which 32 calls are enough and 27 are not. *)
Example C67_two_messages :
  length (deep_response 2) = 218 /\
  @decode_response_within default_features 27 (deep_response 2) = Panic /\
  @decode_response_within default_features 28 (deep_response 2) = Error RspFailed /\
  @decode_response default_features (deep_response 2) = Error RspFailed.
Proof. repeat split; vm_compute; reflexivity. Qed.
Example C67_two_messages_32 : 16 + 6 * length (deep_response 2) / 77 = 32.
Proof. reflexivity. Qed.
(** With a limit of 200 bytes 31 calls are enough; the message of 218 bytes is then too long. *)
Example C67_limit : 16 + 6 * 200 / 77 = 31 /\
  let s := fst (run (frag_new (Some 200%N)) [Enqueue (deep_response 2 ++ [bCR; bLF]); Progress]) in
  decode_message (@decode_response_within default_features 31) s = DMTooLong (firstn 200 (deep_response 2)).
Proof. split; [reflexivity | vm_compute; reflexivity]. Qed.

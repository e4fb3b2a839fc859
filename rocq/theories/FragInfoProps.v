(** C65: the positions of fragments, and C66: the example examples/fragmentizer.rs.

    [run (frag_new max) ops] is any history of calls, also with [skip_message] and
    [poison_message] (FragSpec.v). [fragment_slice] is [fragment_bytes] with [None] for the panic
    of an invalid slice (FragExample.v). *)

From Verif Require Import Bytes BytesFacts Features Nom Types Conv Decode Ctors Fragmentizer FragSpec FragFacts FragProps
  ValueProps FragExample FragInfoFacts.
Open Scope nat_scope.

(** ** C65 *)

(** As long as the message is the current one, the information returned for a fragment keeps
    giving the bytes of this fragment, whatever is enqueued and parsed in the meantime, and also
    if the limit is exceeded in the meantime. *)
Theorem C65_stable : forall max ops s f ops2,
  progress (fst (run (frag_new max) ops)) = (s, Some f) -> stays s ops2 ->
  fragment_bytes (fst (run s ops2)) f = fragment_bytes s f.
Proof.
  intros max ops s f ops2 P St. destruct (progress_returns _ _ _ _ P) as (_ & L & Q).
  destruct (stays_grows ops2 s _ _ Q St) as (x & Ex & M & a & e & Hl & _).
  rewrite !fragment_bytes_slice, Ex. rewrite Ex, M in Hl. exact (clipped_slice _ _ _ _ _ _ L Hl).
Qed.
(** In no state of any fragmentizer does [fragment_bytes] panic for a fragment that a
    fragmentizer has returned. *)
Theorem C65_no_panic : forall max ops s f t,
  progress (fst (run (frag_new max) ops)) = (s, Some f) ->
  fragment_slice t f = Some (fragment_bytes t f).
Proof. intros max ops s f t P. apply fragment_slice_some. now apply progress_returns in P. Qed.
(** For fragment information that the caller has made up, it panics exactly if the end is before
    the start and inside of the message. *)
Theorem C65_panics_iff : forall s f,
  fragment_slice s f = None <->
  snd (frag_range f) < fst (frag_range f) /\ snd (frag_range f) < length (message_bytes s).
Proof. exact fragment_slice_none. Qed.
(** The first fragment of a message is a line from position 0: of the first message, ... *)
Theorem C65_first : forall max ops s g,
  Forall (fun o => o <> Skip) ops -> snd (run (frag_new max) ops) = [] ->
  progress (fst (run (frag_new max) ops)) = (s, Some g) ->
  exists stop ann ending, g = FLine 0 stop ann ending.
Proof.
  intros max ops s g No E P.
  assert (A : awaits (frag_new max) 0 None) by reflexivity.
  exact (awaits_progress _ _ _ _ _ (awaits_run ops _ _ _ A No E) P).
Qed.
(** ... and of the one that starts after a skipped one. *)
Theorem C65_first_after_skip : forall z ops s g,
  Forall (fun o => o <> Skip) ops -> snd (run (skip_message z) ops) = [] ->
  progress (fst (run (skip_message z) ops)) = (s, Some g) ->
  exists stop ann ending, g = FLine 0 stop ann ending.
Proof.
  intros z ops s g No E P.
  assert (A : awaits (skip_message z) 0 None) by reflexivity.
  exact (awaits_progress _ _ _ _ _ (awaits_run ops _ _ _ A No E) P).
Qed.
(** The next fragment: after an announcement, a literal that starts where the line ends and has the
    announced length; after a literal, a line that starts where the literal ends; and after the
    end of a message, a line from position 0. *)
Theorem C65_next : forall z s f ops s' g,
  progress z = (s, Some f) ->
  Forall (fun o => o <> Skip) ops -> snd (run s ops) = [] ->
  progress (fst (run s ops)) = (s', Some g) ->
  match f with
  | FLine _ stop (Some a) _ => g = FLiteral stop (stop + N.to_nat (ann_length a))
  | FLiteral _ stop => exists stop' ann ending, g = FLine stop stop' ann ending
  | FLine _ _ None _ => exists stop' ann ending, g = FLine 0 stop' ann ending
  end.
Proof.
  intros z s f ops s' g P No E P'.
  pose proof (awaits_progress _ _ _ _ _ (awaits_run ops _ _ _ (awaits_after _ _ _ P) No E) P') as K.
  destruct f as [a b [an |] en | a b]; exact K.
Qed.
Print Assumptions C65_stable.
Print Assumptions C65_no_panic.
Print Assumptions C65_panics_iff.
Print Assumptions C65_first.
Print Assumptions C65_first_after_skip.
Print Assumptions C65_next.

(** *** The theorems are not vacuous *)
Definition info_ops : list call :=
  [Enqueue (bs "b LOGIN {3}" ++ [bCR]); Progress; Enqueue ([bLF] ++ bs "x")].
Definition info_more : list call := [Progress; Poison; Enqueue (bs "yz p" ++ [bLF]); Progress; Progress; Enqueue (bs "c")].
Definition info_line : fragment_info := FLine 0 13 (Some (mkAnn Sync 3)) CrLf.
(* with a limit that is exceeded by the rest of the message, and with one that the line exceeds *)
Example C65_not_vacuous : forall n, In n [15%N; 4%N; 0%N] -> exists s,
  progress (fst (run (frag_new (Some n)) info_ops)) = (s, Some info_line) /\ stays s info_more /\
  fragment_bytes s info_line = firstn (N.to_nat n) (bs "b LOGIN {3}" ++ [bCR; bLF]) /\
  length (snd (run s info_more)) = 2 /\ exceeded (fst (run s info_more)) = true.
Proof.
  intros n [<- | [<- | [<- | []]]]; eexists; (split; [vm_compute; reflexivity |]); vm_compute; repeat split; reflexivity.
Qed.
(** The information is for the current message only: later it shows bytes of another one. *)
Example C65_stale :
  let s := fst (run (frag_new None) [Enqueue (bs "a" ++ [bLF] ++ bs "bcd" ++ [bLF]); Progress]) in
  fragment_bytes s (FLine 0 2 None Lf) = bs "a" ++ [bLF] /\
  fragment_bytes (fst (progress s)) (FLine 0 2 None Lf) = bs "bc".
Proof. vm_compute. split; reflexivity. Qed.
Example C65_made_up : fragment_slice (fst (run (frag_new None) [Enqueue (bs "abc"); Progress])) (FLiteral 2 1) = None.
Proof. reflexivity. Qed.
Example C65_next_applies : exists s f s' g,
  progress (fst (run (frag_new None) info_ops)) = (s, Some f) /\
  snd (run s [Progress; Poison; Enqueue (bs "yz")]) = [] /\
  progress (fst (run s [Progress; Poison; Enqueue (bs "yz")])) = (s', Some g) /\ g = FLiteral 13 16.
Proof. do 4 eexists. split; [vm_compute; reflexivity |]. split; [reflexivity |]. split; [vm_compute; reflexivity | reflexivity]. Qed.

(** ** C66 *)

(** However the input arrives, and whatever it is, the example never panics and comes to its end. *)
Theorem C66_total : forall reads, Forall (fun x => 1 <= length x <= 64) reads -> exists es, example_starts reads es.
Proof. intros reads H. exact (shows_total reads H _ _ _ (placed_new (Some 1024%N))). Qed.
(** It shows exactly the lines and literals of its input (FragSpec.v), and each message that is
    complete, cut off after 1024 bytes. *)
Theorem C66_shows : forall reads es, example_starts reads es ->
  exists fs e rest, splits ExpectLine (concat reads) fs e rest /\
    filter is_result es = flat_map shown_for (expected (Some 1024%N) [] fs).
Proof.
  intros reads es R. destruct (shows_drains _ _ _ R) as (obs & s' & D & E).
  assert (Rd : ready (Some 1024%N) [] ExpectLine (enqueue (frag_new (Some 1024%N)) (concat reads))).
  { left. unfold at_start. cbn -[firstn limited too_long]. now rewrite limited_nil, too_long_nil. }
  destruct (drains_spec _ _ _ D _ _ _ Rd) as (fs & e & rest & Sp & Eo & _).
  exists fs, e, rest. split; [exact Sp |]. now rewrite E, Eo.
Qed.
(** What it shows does not depend on how the input arrives. *)
Theorem C66_chunking : forall reads1 reads2 es1 es2,
  concat reads1 = concat reads2 -> example_starts reads1 es1 -> example_starts reads2 es2 ->
  filter is_result es1 = filter is_result es2.
Proof.
  intros reads1 reads2 es1 es2 E R1 R2.
  destruct (shows_drains _ _ _ R1) as (o1 & s1 & D1 & E1), (shows_drains _ _ _ R2) as (o2 & s2 & D2 & E2).
  rewrite E in D1. destruct (drains_fun _ _ _ _ _ D1 D2) as (-> & _). congruence.
Qed.
(** It says what it has read, in order. *)
Theorem C66_reads : forall reads es, example_starts reads es ->
  flat_map (fun e => match e with ShEnqueue n t => [(n, t)] | _ => [] end) es =
  map (fun x => (lenN x, escape_byte_string x)) reads /\
  exists es', es = es' ++ [ShReading; ShClosed] /\ ~ In ShClosed es'.
Proof.
  unfold example_starts. intros reads es R.
  induction R as [s s1 f b reads es P Sl R IH | s s1 P | s s1 x reads es P Hx R IH].
  - destruct IH as (IH & es' & -> & No). split.
    + cbn [flat_map app]. rewrite flat_map_app, IH. now destruct (is_message_complete s1).
    + eexists (_ :: _ ++ es'). cbn [app]. rewrite app_assoc. split; [reflexivity |].
      intros [E | E]; [discriminate E |]. apply in_app_iff in E as [E | E]; [| contradiction].
      destruct (is_message_complete s1); [destruct E as [E | E]; [discriminate E | destruct E] | destruct E].
  - split; [reflexivity |]. exists []. split; [reflexivity | intros []].
  - destruct IH as (IH & es' & -> & No). split.
    + cbn [flat_map app map]. now rewrite IH.
    + exists (ShReading :: ShEnqueue (lenN x) (escape_byte_string x) :: es'). split; [reflexivity |].
      intros [E | [E | E]]; [discriminate E | discriminate E | contradiction].
Qed.
(** Everything that is shown of the input is printable ASCII. *)
Theorem C66_printable : forall reads es, example_starts reads es ->
  Forall (fun e => match e with
    | ShFragment _ t | ShComplete t | ShEnqueue _ t => Forall (fun b => (0x20 <= bN b <= 0x7e)%N) t
    | ShReading | ShClosed => True end) es.
Proof.
  unfold example_starts. intros reads es R.
  induction R as [s s1 f b reads es P Sl R IH | s s1 P | s s1 x reads es P Hx R IH].
  - constructor; [apply C42_printable |]. apply Forall_app. split; [| exact IH].
    destruct (is_message_complete s1); constructor; [apply C42_printable | constructor].
  - repeat constructor.
  - constructor; [exact I |]. constructor; [apply C42_printable | exact IH].
Qed.
(** [read_line] of the other examples: a line of the input gets the ending CRLF if it has another one
    or none, and is not changed otherwise; only at the end of the input it is empty. *)
Theorem C66_read_line : forall raw, (exists t, ~ In bLF t /\ (raw = t \/ raw = t ++ [bLF])) ->
  (read_line raw = [] <-> raw = []) /\
  (raw <> [] -> exists t, ~ In bLF t /\ read_line raw = t ++ [bCR; bLF] /\
     (raw = t \/ raw = t ++ [bLF] \/ raw = t ++ [bCR; bLF])).
Proof.
  intros raw (t & Ht & Hr). unfold read_line.
  destruct (beqs_spec raw []) as [-> | Ne]; [split; [tauto |]; now intros [] |].
  split.
  { destruct (ends_with [bCR; bLF] raw); [tauto |]. split; [| contradiction].
    intros E. apply app_eq_nil in E as (_ & E). discriminate. }
  intros _. destruct (ends_with [bCR; bLF] raw) eqn:E.
  - apply ends_with_iff in E as (u & ->). exists u. split; [| auto].
    destruct Hr as [E | E].
    + intros _. apply Ht. rewrite <- E. apply in_app_iff. right. cbn. auto.
    + change [bCR; bLF] with ([bCR] ++ [bLF]) in E. rewrite app_assoc in E. apply app_inj_tail in E as (E & _).
      intros Hin. apply Ht. rewrite <- E. apply in_app_iff. now left.
  - exists t. split; [exact Ht |]. destruct (ends_with [bLF] raw) eqn:E2.
    + apply ends_with_iff in E2 as (u & ->). destruct Hr as [E3 | E3].
      * exfalso. apply Ht. rewrite <- E3. apply in_app_iff. right. cbn. auto.
      * apply app_inj_tail in E3 as (-> & _). rewrite removelast_last. auto.
    + destruct Hr as [-> | ->]; [auto |]. exfalso.
      assert (K : ends_with [bLF] (t ++ [bLF]) = true) by (apply ends_with_iff; eauto). congruence.
Qed.
Print Assumptions C66_total.
Print Assumptions C66_shows.
Print Assumptions C66_chunking.
Print Assumptions C66_reads.
Print Assumptions C66_printable.
Print Assumptions C66_read_line.

(** *** The theorems are not vacuous *)
Lemma shows_fragment_eq s s1 f b reads es es0 :
  progress s = (s1, Some f) -> fragment_slice s1 f = Some b ->
  es0 = ShFragment f (escape_byte_string b) ::
    (if is_message_complete s1 then [ShComplete (escape_byte_string (message_bytes s1))] else []) ++ es ->
  shows s1 reads es -> shows s reads es0.
Proof. intros P Sl -> R. eapply shows_fragment; eassumption. Qed.
Definition shown1 : list shown := [ShReading; ShClosed].
Definition shown2 : list shown := ShFragment (FLine 8 9 None Lf) (bs "\n") :: ShComplete (bs "a {1}\r\nx\n") :: shown1.
Definition shown3 : list shown := ShFragment (FLiteral 7 8) (bs "x") :: shown2.
Example C66_run :
  example_starts [bs "a {1}" ++ [bCR]; [bLF] ++ bs "x" ++ [bLF] ++ bs "b"]
    (ShReading :: ShEnqueue 6 (bs "a {1}\r") :: ShReading :: ShEnqueue 4 (bs "\nx\nb") ::
     ShFragment (FLine 0 7 (Some (mkAnn Sync 1)) CrLf) (bs "a {1}\r\n") :: shown3).
Proof.
  eapply shows_reads; [vm_compute; reflexivity | cbn; lia |].
  eapply shows_reads; [vm_compute; reflexivity | cbn; lia |].
  eapply (shows_fragment_eq _ _ _ (bs "a {1}" ++ [bCR; bLF]) _ shown3);
    [vm_compute; reflexivity | vm_compute; reflexivity | vm_compute; reflexivity |].
  eapply (shows_fragment_eq _ _ _ (bs "x") _ shown2);
    [vm_compute; reflexivity | vm_compute; reflexivity | vm_compute; reflexivity |].
  eapply (shows_fragment_eq _ _ _ [bLF] _ shown1);
    [vm_compute; reflexivity | vm_compute; reflexivity | vm_compute; reflexivity |].
  eapply shows_closed. vm_compute. reflexivity.
Qed.
Example C66_read_line_applies :
  read_line (bs "a") = bs "a" ++ [bCR; bLF] /\ read_line (bs "a" ++ [bLF]) = bs "a" ++ [bCR; bLF] /\
  read_line (bs "a" ++ [bCR; bLF]) = bs "a" ++ [bCR; bLF] /\ read_line [bLF] = [bCR; bLF].
Proof. repeat split; reflexivity. Qed.

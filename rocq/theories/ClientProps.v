(** The client example (imap-codec/examples/client.rs): C51.

    [client_starts max chunks es s st]: the loop is started with a limit of [max] bytes per message,
    reads [chunks] one after the other, prints [es] and then waits for more, in state [st]. *)

From Verif Require Import Bytes BytesFacts Dec Features Nom Types Utf8 Conv ParseResp EncodeCtx Encode EncodeFacts
  EncodeApi Decode Valid ValidFacts OtherCode EncFragFacts LineFacts Fragmentizer FragSpec FragFacts RtResp
  RoundTripSpec RoundTripProps StreamSpec StreamFacts StreamProps Client ClientFacts.
Open Scope nat_scope.

Section Client.
Context {F : features}.

(** A message that a server can write so that its lines are recognised, see C23 *)
Definition plain_greeting (g : greeting) : Prop :=
  v_greeting LDecoded other_name g = true /\ quiet_greeting g /\
  (ext_utf8 = false \/ clean_lines (encode_greeting g)).
Definition plain_response (r : response) : Prop :=
  v_response LDecoded other_name r = true /\ has_modseq r = false /\ quiet_response r /\
  (ext_utf8 = false \/ clean_lines (encode_response r)).

Lemma greeting_sound g : plain_greeting g ->
  (exists l, e_greeting g = l ++ e_crlf /\ sound l) /\
  decode_greeting (dump_fragments (encode_greeting g)) = Decoded [] (w_greeting g).
Proof.
  intros (V & Q & U). split; [apply (sound_greeting other_name (fun b t H => proj1 (andb_prop _ _ H))); assumption |].
  pose proof (C11_greeting g V []) as D. now rewrite app_nil_r in D.
Qed.
Lemma response_sound r : plain_response r ->
  (exists l, e_response r = l ++ e_crlf /\ sound l) /\
  decode_response (dump_fragments (encode_response r)) = Decoded [] (w_response r).
Proof.
  intros (V & M & Q & U). split; [apply (sound_response other_name (fun b t H => proj1 (andb_prop _ _ H))); assumption |].
  pose proof (C10_response r V M []) as D. now rewrite app_nil_r in D.
Qed.

(** The server writes a greeting and responses, then possibly something else, and the bytes arrive
    in any chunks: the client learns the greeting, then each response, once and in order; a
    response above the limit is reported as too long and does not disturb the others. *)
Theorem C51_session : forall g rs max chunks rest es s st,
  plain_greeting g -> Forall plain_response rs ->
  (lenN (dump_fragments (encode_greeting g)) <= max)%N ->
  concat chunks = dump_fragments (encode_greeting g) ++
    concat (map (fun r => dump_fragments (encode_response r)) rs) ++ rest ->
  client_starts max chunks es s st ->
  st = AwaitResponses /\ exists more,
    es = EvGreeting (DMOk (w_greeting g)) ::
         map (fun r => EvResponse (received (Some max) (dump_fragments (encode_response r)) (w_response r))) rs ++
         map EvResponse more /\
    (rest = [] -> more = []).
Proof.
  intros g rs max chunks rest es s st Hg Hr Hm Ec R. apply client_drains in R as (obs & D & E).
  rewrite Ec in D. destruct (greeting_sound g Hg) as (Sg & Dg).
  assert (Ed : dump_fragments (encode_greeting g) ++ concat (map (fun r => dump_fragments (encode_response r)) rs) ++ rest
    = concat (map (fun e => dump_fragments (fragments e)) (e_greeting g :: map e_response rs)) ++ rest).
  { cbn [map concat]. rewrite map_map, <- app_assoc. reflexivity. }
  rewrite Ed in D. apply drains_messages in D as (obs2 & s2 & D2 & E2).
  2: { constructor; [exact Sg |]. apply Forall_map. revert Hr. apply Forall_impl. intros r H. now apply response_sound. }
  rewrite E2 in E. cbn [map reads_all] in E. fold (encode_greeting g) in E.
  assert (T : too_long (Some max) (dump_fragments (encode_greeting g)) = false) by (cbn; now apply N.ltb_ge).
  rewrite (reads_greeting _ _ _ Dg T) in E. rewrite map_map in E.
  assert (K : reads_all (Some max) (map (fun x => dump_fragments (fragments (e_response x))) rs) AwaitResponses =
    (AwaitResponses, map (fun r => EvResponse (received (Some max) (dump_fragments (encode_response r)) (w_response r))) rs)).
  { clear -Hr. induction Hr as [| r rs H Hr IH]; [reflexivity |]. cbn [map reads_all].
    rewrite (reads_response _ _ (w_response r)) by now apply response_sound. rewrite IH. reflexivity. }
  rewrite K, sees_responses in E. injection E as <- <-. split; [reflexivity |].
  exists (flat_map (of_obs decode_response) obs2). split; [reflexivity |].
  intros ->. inversion D2; subst; [reflexivity |]. exfalso. cbn in *. discriminate.
Qed.

(** Whatever the server writes: how the bytes are split into chunks does not matter. *)
Theorem C51_chunking : forall max chunks1 chunks2 es1 s1 st1 es2 s2 st2,
  concat chunks1 = concat chunks2 ->
  client_starts max chunks1 es1 s1 st1 -> client_starts max chunks2 es2 s2 st2 ->
  es1 = es2 /\ s1 = s2 /\ st1 = st2.
Proof.
  intros max chunks1 chunks2 es1 s1 st1 es2 s2 st2 E R1 R2.
  apply client_drains in R1 as (obs1 & D1 & E1), R2 as (obs2 & D2 & E2). rewrite E in D1.
  destruct (drains_fun _ _ _ _ _ D1 D2) as (-> & ->). rewrite E1 in E2. injection E2 as -> ->. auto.
Qed.
(** The loop always comes back to waiting. *)
Theorem C51_total : forall max chunks, exists es s st, client_starts max chunks es s st.
Proof. intros. apply client_total. Qed.
(** What has been learnt stays learnt; nothing is held back until more bytes arrive. *)
Theorem C51_online : forall max chunks more es s st,
  client_starts max (chunks ++ more) es s st ->
  exists es1 s1 st1 es2, client_starts max chunks es1 s1 st1 /\ es = es1 ++ es2.
Proof.
  intros max chunks more es s st. unfold client_starts. generalize (frag_new (Some max)) AwaitGreeting.
  intros f0 st0 R. remember (chunks ++ more) as all eqn:E. revert chunks E.
  induction R as [z z' st P | z z' st x cs es s2 st2 P R IH | z z1 f st st1 es cs es' s2 st2 P Er R IH]; intros chunks E.
  - symmetry in E. apply app_eq_nil in E as (-> & ->). exists [], z', st, []. split; [now apply client_waits | reflexivity].
  - destruct chunks as [| y chunks].
    + exists [], z', st, es. split; [now apply client_waits | reflexivity].
    + injection E as <- ->. destruct (IH _ eq_refl) as (es1 & s1 & st1 & es2 & R1 & ->).
      exists es1, s1, st1, es2. split; [now apply client_reads with z' | reflexivity].
  - destruct (IH _ E) as (es1 & s1' & st1' & es2 & R1 & ->).
    exists (es ++ es1), s1', st1', es2. split; [now apply client_goes_on with z1 f st1 | apply app_assoc].
Qed.
(** Whatever the server writes: messages that are no greeting, then at most one greeting, and
    only after it responses. *)
Theorem C51_greeting_first : forall max chunks es s st,
  client_starts max chunks es s st ->
  exists bad, Forall (fun r => forall g, r <> DMOk g) bad /\
    ((st = AwaitGreeting /\ es = map EvGreeting bad) \/
     (st = AwaitResponses /\ exists g rs, es = map EvGreeting bad ++ EvGreeting (DMOk g) :: map EvResponse rs)).
Proof.
  intros max chunks es s st R. apply client_drains in R as (obs & _ & E). now apply sees_greeting in E.
Qed.
End Client.
Print Assumptions C51_session.
Print Assumptions C51_chunking.
Print Assumptions C51_total.
Print Assumptions C51_online.
Print Assumptions C51_greeting_first.

(** ** The theorems are not vacuous *)
Module ClientExamples.
#[local] Existing Instance default_features.
Definition hello : greeting := mkGreeting GKOk None (bs "hi").
Definition answers : list response :=
  [RData (DExists 7%N); rsp_fetch; RStatus (StTagged (bs "A1") (mkStatusBody SKOk None (bs "done")))].
Lemma quiet_no_brace t : existsb (fun b => beq b "{"%byte) t = false -> quiet t.
Proof.
  intros H a An. apply announces_crlf in An as (u & ds & E & _).
  assert (K : existsb (fun b => beq b "{"%byte) t = true).
  { rewrite E, existsb_app. cbn. now rewrite orb_true_r. }
  congruence.
Qed.
Example C51_hyp : plain_greeting hello /\ Forall plain_response answers /\
  (lenN (dump_fragments (encode_greeting hello)) <= 60)%N.
Proof.
  repeat (split || constructor); try reflexivity; try (now apply quiet_no_brace); try exact I; try (vm_compute; discriminate).
Qed.
Definition server_bytes : bytes :=
  dump_fragments (encode_greeting hello) ++ concat (map (fun r => dump_fragments (encode_response r)) answers).
(* in chunks that split the CRLF of the greeting and a literal *)
Definition server_chunks : list bytes :=
  [firstn 9 server_bytes; []; firstn 50 (skipn 9 server_bytes); skipn 59 server_bytes].
Example C51_run : exists s,
  client_starts 60 server_chunks
    [EvGreeting (DMOk hello); EvResponse (DMOk (RData (DExists 7%N)));
     EvResponse (DMTooLong (firstn 60 (dump_fragments (encode_response rsp_fetch))));
     EvResponse (DMOk (RStatus (StTagged (bs "A1") (mkStatusBody SKOk None (bs "done")))))] s AwaitResponses.
Proof. eexists. apply (go_runs 20). vm_compute. reflexivity. Qed.

(** *** A greeting above the limit: the client goes on to wait for a greeting, and takes a
    response for it. *)
Definition long_hello : greeting := mkGreeting GKOk None (bs "welcome to my server").
End ClientExamples.
Import ClientExamples.
Theorem C51_long_greeting_refuted : exists s,
  plain_greeting (F := default_features) long_hello /\
  client_starts (F := default_features) 20 [dump_fragments (encode_greeting (F := default_features) long_hello) ++
    dump_fragments (encode_response (F := default_features) (RStatus (StUntagged (mkStatusBody SKOk None (bs "busy")))))]
    [EvGreeting (DMTooLong (firstn 20 (dump_fragments (encode_greeting (F := default_features) long_hello))));
     EvGreeting (DMOk (mkGreeting GKOk None (bs "busy")))] s AwaitResponses.
Proof.
  eexists. split; [repeat split; try reflexivity; try (now apply quiet_no_brace); now left |].
  apply (go_runs 20). vm_compute. reflexivity.
Qed.
Print Assumptions C51_long_greeting_refuted.

(** C74: a server can answer every command with its tag, also one that it refuses or that is too long.

    [answer] is what a server does with a complete message: it takes the tag of the command if the message decodes,
    and asks the fragmentizer for the tag otherwise. *)

From Verif Require Import Bytes BytesFacts Features Nom Types Conv ParseResp EncodeCtx Encode EncodeFacts EncodeApi Valid OtherCode Decode DecodeSpec DecodeProps Fragmentizer FragSpec FragFacts StreamSpec
  ValueSpec ValueFacts Grammar GrammarProps SyncSpec SyncFacts SyncProps RoundTripSpec RoundTripProps StreamProps AbnfSpec FramedFacts FramedProps.
Open Scope nat_scope.

Section Answer.
Context {F : features}.

Definition answer (s : fragmentizer) : option bytes :=
  match decode_message decode_command s with
  | DMOk c | DMRemainder c _ => Some (cmd_tag c)
  | _ => decode_tag s
  end.
(** After each call to [progress] that completes a message the server answers ... *)
Definition answer_step (s : fragmentizer) (o : call) : fragmentizer * list (option bytes) :=
  match o with
  | Progress =>
    let '(s', f) := progress s in
    (s', match f with
         | Some _ => if is_message_complete s' then [answer s'] else []
         | None => []
         end)
  | o => (fst (step s o), [])
  end.
Fixpoint answering (s : fragmentizer) (ops : list call) : fragmentizer * list (option bytes) :=
  match ops with
  | [] => (s, [])
  | o :: ops' =>
    let '(s1, r1) := answer_step s o in
    let '(s2, r2) := answering s1 ops' in (s2, r1 ++ r2)
  end.
(** ... until [progress] finds no more fragments. *)
Inductive answering_rest : fragmentizer -> list (option bytes) -> Prop :=
| answering_none s s' : progress s = (s', None) -> answering_rest s []
| answering_some s s1 f r :
    progress s = (s1, Some f) -> answering_rest s1 r ->
    answering_rest s ((if is_message_complete s1 then [answer s1] else []) ++ r).
Definition answers (s : fragmentizer) (ops : list call) (r : list (option bytes)) : Prop :=
  exists r2, answering_rest (fst (answering s ops)) r2 /\ r = snd (answering s ops) ++ r2.

(** The tag of a message *)
Definition tagged (m tag : bytes) : Prop := some_of TAG_CHAR tag /\ exists r, m = tag ++ bs " " ++ r.

(** ** A receiver that only keeps the bytes *)
Definition keep (m : bytes) : outcome unit bytes := Decoded [] m.
Definition ans (r : decode_message_result unit bytes) : option bytes :=
  match r with
  | DMOk b => match decode_command b with Decoded _ c => Some (cmd_tag c) | _ => parse_tag b end
  | DMTooLong b | DMPoisoned b => parse_tag b
  | _ => None
  end.
Lemma answer_ans s : answer s = ans (decode_message keep s).
Proof.
  unfold answer, ans, decode_message, decode_tag, keep. destruct (exceeded s); [reflexivity |]. destruct (poisoned s); [reflexivity |].
  destruct (decode_command (buffer s)) as [[| b r] c | e |]; reflexivity.
Qed.
Lemma answer_step_ans s o : answer_step s o = (fst (receive_step keep s o), map ans (snd (receive_step keep s o))).
Proof.
  destruct o; try reflexivity. cbn. destruct (progress s) as [s' [f |]]; [| reflexivity]. cbn.
  destruct (is_message_complete s'); cbn; [now rewrite answer_ans | reflexivity].
Qed.
Lemma answering_ans ops : forall s, answering s ops = (fst (receive keep s ops), map ans (snd (receive keep s ops))).
Proof.
  induction ops as [| o ops IH]; intros s; [reflexivity |]. cbn [answering receive]. rewrite answer_step_ans.
  destruct (receive_step keep s o) as [s1 r1]. cbn [fst snd]. rewrite IH. destruct (receive keep s1 ops) as [s2 r2]. cbn [fst snd].
  now rewrite map_app.
Qed.
Lemma answering_rest_ans s r : answering_rest s r -> exists r', receive_rest keep s r' /\ r = map ans r'.
Proof.
  induction 1 as [s s' P | s s1 f r P A (r' & R & ->)].
  - exists []. split; [eapply receive_none; eauto | reflexivity].
  - eexists. split; [eapply receive_some; eauto |]. rewrite map_app, answer_ans. now destruct (is_message_complete s1).
Qed.
Lemma answers_ans s ops r : answers s ops r -> exists r', receives keep s ops r' /\ r = map ans r'.
Proof.
  intros (r2 & R & ->). rewrite answering_ans in *. cbn [fst snd] in *. apply answering_rest_ans in R as (r' & R & ->).
  exists (snd (receive keep s ops) ++ r'). split; [now exists r' | now rewrite map_app].
Qed.

(** ** Tags *)
Lemma parse_tagged m tag : tagged m tag -> parse_tag m = Some tag.
Proof. intros (T & r & ->). apply parse_tag_spec. split; [now apply tag_ok_spec |]. now exists r. Qed.
Lemma tagged_limited max m tag : tagged m tag -> (forall n, max = Some n -> (lenN tag < n)%N) -> tagged (limited max m) tag.
Proof.
  intros (T & r & ->) L. split; [exact T |]. destruct max as [n |]; [| now exists r]. specialize (L n eq_refl). cbn [limited]. unfold lenN in L.
  rewrite app_assoc, firstn_app. rewrite firstn_all2 by (rewrite app_length; cbn; lia). rewrite <- app_assoc. now eexists.
Qed.
Lemma command_tagged m r c : decode_command m = Decoded r c -> tagged m (cmd_tag c).
Proof.
  intros D. destruct (C44_command _ _ _ D) as (t & -> & G). destruct G as [tt tag t b e Gt Gb E]. cbn [cmd_tag].
  destruct Gt as [T ->]. split; [exact T |]. exists ((t ++ e) ++ r). now rewrite <- !app_assoc.
Qed.
Lemma tagged_fun m x y : tagged m x -> tagged m y -> x = y.
Proof. intros A B. apply parse_tagged in A, B. congruence. Qed.
Lemma ans_tagged max m tag : tagged m tag -> (forall n, max = Some n -> (lenN tag < n)%N) -> ans (judged keep max m) = Some tag.
Proof.
  intros T L. unfold judged, keep. destruct (too_long max m).
  - cbn. apply parse_tagged. now apply tagged_limited.
  - cbn. destruct (decode_command m) as [r c | e |] eqn:D; [| now apply parse_tagged ..].
    f_equal. symmetry. apply (tagged_fun m); [exact T | now apply (command_tagged m r)].
Qed.

(** For every stream of messages that start with a tag, whatever they are and however they arrive, the server answers
    with exactly these tags, in order; the limit on messages only has to leave room for the tag and the space. *)
Theorem C74_messages : forall max ops got ms rest tags,
  feeds ops -> messages (fed ops) ms rest -> Forall2 tagged ms tags -> (forall n, max = Some n -> Forall (fun t => (lenN t < n)%N) tags) ->
  answers (frag_new max) ops got -> got = map Some tags.
Proof.
  intros max ops got ms rest tags Hf M T L A. apply answers_ans in A as (r & R & ->).
  rewrite (C57_receiver _ _ _ _ _ _ _ _ Hf M R). clear -T L.
  induction T as [| m tag ms tags H T IH]; [reflexivity |]. cbn [map]. f_equal.
  - apply ans_tagged; [exact H |]. intros n E. specialize (L n E). now inversion L.
  - apply IH. intros n E. specialize (L n E). now inversion L.
Qed.
(** Every documented command starts with its tag ... *)
Theorem C74_documented : forall extras limits t, derives extras limits (Ref Command) t -> exists tag, tagged t tag /\ forall tag', tagged t tag' -> tag' = tag.
Proof.
  intros x l t H. apply D_ref_inv in H. cbn [rules] in H.
  apply D_cat_inv in H as (tag & u & -> & Ht & H). apply D_cat_inv in H as (v & w & -> & Hs & _).
  assert (S : v = bs " ").
  { inversion Hs as [s y E | | | | | | | | | | | | | |]; subst. inversion E as [| a b y z E1 E2]; subst. inversion E2; subst.
    destruct E1 as [-> | [[X Y] | [X Y]]]; [reflexivity | exfalso; revert X Y; cbn; lia ..]. }
  subst v.
  assert (T : some_of TAG_CHAR tag).
  { apply D_ref_inv in Ht. cbn [rules] in Ht. apply D_cat_inv in Ht as (a & b & -> & H1 & H2).
    inversion H1; subst. split; [discriminate |]. cbn. constructor; [assumption |]. clear -H2.
    remember (Many (Chr TAG_CHAR)) as y eqn:Y. induction H2; try discriminate Y; [constructor |]. injection Y as ->. inversion H2_; subst. constructor; auto. }
  assert (G : tagged (tag ++ bs " " ++ w) tag) by (split; [exact T | now exists w]).
  exists tag. split; [exact G |]. intros tag' T'. exact (tagged_fun _ _ _ T' G).
Qed.
(** ... so each of them is answered with its tag. *)
Theorem C74_server : forall max ops got ts tags u,
  feeds ops -> Forall (documented (Ref Command)) ts -> (u = [] \/ exists v, v <> [] /\ documented (Ref Command) (u ++ v)) ->
  fed ops = concat ts ++ u -> Forall2 tagged ts tags -> (forall n, max = Some n -> Forall (fun t => (lenN t < n)%N) tags) ->
  answers (frag_new max) ops got -> got = map Some tags.
Proof.
  intros max ops got ts tags u Hf T V Ef G L A.
  assert (M : forall t, documented (Ref Command) t -> message t) by (intros t; apply (C73_command false false); intros _; discriminate).
  refine (C74_messages max ops got ts u tags Hf _ G L A). split; [exact Ef |]. split; [revert T; apply Forall_impl; exact M |].
  destruct V as [-> | (v & V & D)]; [| exact (beginning_unfinished _ _ (M _ D) V)].
  intros m rest X K. symmetry in X. apply app_eq_nil in X as [-> _]. apply message_has_lf in K. contradiction.
Qed.
(** ** A whole exchange
    A client sends any commands; whatever way their bytes arrive, the server answers each with its tag ... *)
Theorem C74_pipelined : ext_utf8 = false -> forall cs max ops got rest,
  Forall (fun c => v_command LDecoded c = true) cs -> unfinished rest ->
  feeds ops -> fed ops = concat (map (fun c => dump_fragments (encode_command c)) cs) ++ rest ->
  (forall n, max = Some n -> Forall (fun c => (lenN (cmd_tag c) < n)%N) cs) ->
  answers (frag_new max) ops got -> got = map (fun c => Some (cmd_tag c)) cs.
Proof.
  intros U cs max ops got rest V Ur Hf E L A.
  assert (D : forall c, v_command LDecoded c = true -> decode_command (dump_fragments (encode_command c)) = Decoded [] (w_command c)).
  { intros c Hc. pose proof (C09_command c Hc []) as D. now rewrite app_nil_r in D. }
  assert (X : got = map Some (map cmd_tag cs)); [| now rewrite map_map in X].
  refine (C74_messages max ops got _ rest (map cmd_tag cs) Hf (conj E (conj _ Ur)) _ _ A).
  - apply Forall_forall. intros m I. apply in_map_iff in I as (c & <- & I). rewrite Forall_forall in V. specialize (V c I).
    destruct (C57_command_consumes U _ _ _ (D c V)) as (m & -> & M). now rewrite app_nil_r.
  - clear -V D. induction V as [| c cs V W IH]; [constructor |]. cbn [map]. constructor; [| exact IH].
    change (cmd_tag c) with (cmd_tag (w_command c)). exact (command_tagged _ _ _ (D c V)).
  - intros n En. specialize (L n En). now apply Forall_map.
Qed.
(** ... and if it sends for each answer one tagged response, the client receives one response for each command, with its tag. *)
Theorem C74_exchange : ext_utf8 = false -> forall cs max ops got rs ops' got',
  Forall (fun c => v_command LDecoded c = true) cs -> (forall n, max = Some n -> Forall (fun c => (lenN (cmd_tag c) < n)%N) cs) ->
  feeds ops -> fed ops = concat (map (fun c => dump_fragments (encode_command c)) cs) -> answers (frag_new max) ops got ->
  Forall2 (fun a r => exists tag b, a = Some tag /\ r = RStatus (StTagged tag b)) got rs ->
  Forall (fun r => v_response LDecoded other_name r = true /\ quiet_response r) rs ->
  feeds ops' -> fed ops' = concat (map (fun r => dump_fragments (encode_response r)) rs) -> receives decode_response (frag_new None) ops' got' ->
  Forall2 (fun c r => exists b, r = DMOk (RStatus (StTagged (cmd_tag c) b))) cs got'.
Proof.
  intros U cs max ops got rs ops' got' V L Hf E A R Vr Hf' E' Rc.
  assert (N : unfinished []).
  { intros m rest X K. symmetry in X. apply app_eq_nil in X as [-> _]. apply message_has_lf in K. contradiction. }
  rewrite (C74_pipelined U cs max ops got [] V N Hf ltac:(now rewrite app_nil_r) L A) in R.
  assert (H : Forall (fun r => v_response LDecoded other_name r = true /\ has_modseq r = false /\ quiet_response r /\
    (ext_utf8 = false \/ clean_lines (encode_response r))) rs).
  { clear -R Vr U. remember (map _ cs) as as_. clear Heqas_. induction R as [| a r l rs (tag & b & -> & ->) R IH]; [constructor |].
    inversion Vr as [| ? ? [V1 V2] Vs]; subst. constructor; [| now apply IH]. repeat split; auto. }
  destruct (C24_responses rs None ops' [] got' H Hf' ltac:(now rewrite app_nil_r) Rc) as (more & M & ->).
  rewrite (C24_nothing_else _ _ _ _ _ M), app_nil_r. clear -R.
  revert rs R. induction cs as [| c cs IH]; intros rs R; inversion R as [| a r l rs' (tag & b & Ea & ->) R']; subst; [constructor |].
  cbn [map]. injection Ea as <-. constructor; [| now apply IH]. eexists. reflexivity.
Qed.
(** For every history there are answers. *)
Theorem C74_total : forall max ops, exists got, answers (frag_new max) ops got.
Proof.
  intros max ops. destruct (C24_total _ _ keep max ops) as (r & r2 & R & _).
  assert (X : exists l, answering_rest (fst (receive keep (frag_new max) ops)) l).
  { clear -R. induction R as [s s' P | s s1 f r P R (l & A)]; eexists; [eapply answering_none | eapply answering_some]; eauto. }
  destruct X as (l & X). exists (snd (answering (frag_new max) ops) ++ l), l. split; [| reflexivity]. now rewrite answering_ans.
Qed.
End Answer.

(** A refused command, a command that is too long, and one that is accepted *)
Definition answer_ops : list call :=
  [Enqueue (deep_search 12 ++ bs "b N"); Progress; Enqueue (bs "OOP" ++ [bCR; bLF] ++ bs "c LOGIN {3"); Progress;
   Enqueue (bs "0+}" ++ [bCR; bLF] ++ repeat "x"%byte 30 ++ bs " y" ++ [bCR; bLF])] ++ repeat Progress 4.
Example C74_server_ex : feeds answer_ops /\ snd (@answering default_features (frag_new (Some 40%N)) answer_ops) = [Some (bs "a"); Some (bs "b"); Some (bs "c")] /\
  snd (receive (@decode_command default_features) (frag_new (Some 40%N)) answer_ops) =
    [DMTooLong (firstn 40 (deep_search 12)); DMOk (mkCommand (bs "b") CNoop); DMTooLong (firstn 40 (bs "c LOGIN {30+}" ++ [bCR; bLF] ++ repeat "x"%byte 30))] /\
  snd (@answering default_features (frag_new None) answer_ops) = [Some (bs "a"); Some (bs "b"); Some (bs "c")] /\
  hd DMPanic (snd (receive (@decode_command default_features) (frag_new None) answer_ops)) = DMFailure CmdFailed.
Proof. split; [repeat constructor |]. split; [vm_compute; reflexivity |]. split; [vm_compute; reflexivity |]. split; vm_compute; reflexivity. Qed.
Example C74_tagged_ex : Forall2 tagged [deep_search 12; noop] [bs "a"; bs "b"].
Proof.
  apply Forall2_cons; [| apply Forall2_cons; [| apply Forall2_nil]];
    (split; [split; [discriminate | apply Forall_cons; [now apply tag_char_ex | apply Forall_nil]] | eexists; reflexivity]).
Qed.
(** An exchange of two commands *)
Definition ex_commands : list command := [mkCommand (bs "a1") CNoop; mkCommand (bs "a2") (CLogin (AAtom (bs "x")) (AString (ILiteral (mkLit (bs "y z") NonSync))))].
Definition ex_replies : list response :=
  [RStatus (StTagged (bs "a1") (mkStatusBody SKOk None (bs "fine"))); RStatus (StTagged (bs "a2") (mkStatusBody SKNo None (bs "no")))].
Definition ex_sent : bytes := concat (map (fun c => dump_fragments (@encode_command default_features c)) ex_commands).
Definition ex_back : bytes := concat (map (fun r => dump_fragments (@encode_response default_features r)) ex_replies).
Example C74_exchange_ex : Forall (fun c => @v_command default_features LDecoded c = true) ex_commands /\
  snd (@answering default_features (frag_new (Some 20%N)) ([Enqueue (firstn 9 ex_sent); Progress; Enqueue (skipn 9 ex_sent)] ++ repeat Progress 5)) = [Some (bs "a1"); Some (bs "a2")] /\
  Forall2 (fun a r => exists tag b, a = Some tag /\ r = RStatus (StTagged tag b)) [Some (bs "a1"); Some (bs "a2")] ex_replies /\
  Forall (fun r => @v_response default_features LDecoded (@other_name default_features) r = true) ex_replies /\ Forall quiet_response ex_replies /\
  snd (receive (@decode_response default_features) (frag_new None) ([Enqueue ex_back] ++ repeat Progress 3)) = map DMOk ex_replies.
Proof.
  split; [apply Forall_cons; [vm_compute; reflexivity | apply Forall_cons; [vm_compute; reflexivity | apply Forall_nil]] |].
  split; [vm_compute; reflexivity |].
  split; [apply Forall2_cons; [eexists _, _; split; reflexivity | apply Forall2_cons; [eexists _, _; split; reflexivity | apply Forall2_nil]] |].
  split; [apply Forall_cons; [vm_compute; reflexivity | apply Forall_cons; [vm_compute; reflexivity | apply Forall_nil]] |].
  split; [| vm_compute; reflexivity].
  assert (Q : forall t, ~ In "{"%byte (t ++ [bCR; bLF]) -> quiet t).
  { intros t N a (pre & ds & el & H & _). apply N. rewrite H. apply in_or_app. right. now left. }
  apply Forall_cons; [| apply Forall_cons; [| apply Forall_nil]]; apply Q; cbn; intros I; repeat (destruct I as [I | I]; [discriminate |]); exact I.
Qed.
(** Without room for the tag there is none. *)
Example C74_limit_ex : snd (@answering default_features (frag_new (Some 1%N)) answer_ops) = [None; None; None].
Proof. vm_compute. reflexivity. Qed.

Print Assumptions C74_messages.
Print Assumptions C74_documented.
Print Assumptions C74_server.
Print Assumptions C74_pipelined.
Print Assumptions C74_exchange.
Print Assumptions C74_total.

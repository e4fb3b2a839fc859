(** Proofs about the client example, for ClientProps.v. *)

From Verif Require Import Bytes BytesFacts Features Nom Types EncodeCtx Encode EncodeFacts EncodeApi Decode
  EncFragFacts LineFacts Fragmentizer
  FragSpec FragFacts StreamSpec StreamFacts Client.
Open Scope nat_scope.

Section Client.
Context {F : features}.

(** The client's reaction is a function of what is observed. *)
Definition sees (st : client_state) (o : observation) : client_state * list client_event :=
  match st with
  | AwaitGreeting =>
    (match of_obs decode_greeting o with [DMOk _] => AwaitResponses | _ => AwaitGreeting end,
     map EvGreeting (of_obs decode_greeting o))
  | AwaitResponses => (AwaitResponses, map EvResponse (of_obs decode_response o))
  end.
Lemma react_sees st s f : client_react st s = sees st (observe s f).
Proof.
  unfold client_react, sees. destruct st; rewrite of_observe; destruct (is_message_complete s); reflexivity.
Qed.
Fixpoint sees_all (st : client_state) (obs : list observation) : client_state * list client_event :=
  match obs with
  | [] => (st, [])
  | o :: obs' =>
    let '(st1, e1) := sees st o in
    let '(st2, e2) := sees_all st1 obs' in (st2, e1 ++ e2)
  end.
Lemma sees_app a : forall st b,
  sees_all st (a ++ b) = let '(st1, e1) := sees_all st a in let '(st2, e2) := sees_all st1 b in (st2, e1 ++ e2).
Proof.
  induction a as [| o a IH]; intros st b; cbn [app sees_all]; [now destruct (sees_all st b) |].
  destruct (sees st o) as [st1 e1]. rewrite IH. destruct (sees_all st1 a) as [st2 e2], (sees_all st2 b) as [st3 e3].
  now rewrite app_assoc.
Qed.
Lemma client_drains s st chunks es s2 st2 : client_runs s st chunks es s2 st2 ->
  exists obs, drains (enqueue s (concat chunks)) obs s2 /\ sees_all st obs = (st2, es).
Proof.
  induction 1 as [s s' st P | s s' st x chunks es s2 st2 P R IH | s s1 f st st1 es chunks es' s2 st2 P Er R IH].
  - exists []. split; [| reflexivity]. cbn. rewrite enqueue_nil. now apply drains_none.
  - destruct IH as (obs & D & E). exists obs. split; [| exact E]. cbn [concat].
    rewrite enqueue_app in D. pose proof (progress_none_enqueue _ (x ++ concat chunks) _ P) as K.
    inversion D; subst; [apply drains_none | eapply drains_some; [| eassumption]]; now rewrite K.
  - destruct IH as (obs & D & E). rewrite (react_sees _ _ f) in Er.
    exists (observe s1 f :: obs). cbn [sees_all]. rewrite Er, E. split; [| reflexivity].
    change (observe s1 f) with (observe (enqueue s1 (concat chunks)) f).
    eapply drains_some; [exact (progress_some_enqueue _ (concat chunks) _ _ P) | exact D].
Qed.
Lemma client_total chunks : forall s st, exists es s2 st2, client_runs s st chunks es s2 st2.
Proof.
  induction chunks as [| x chunks IH]; intros s st.
  - destruct (drains_total s) as (obs & s' & D). revert st.
    induction D as [s s' P | s s1 f obs s' P D IHD]; intros st.
    + eexists _, _, _. eapply client_waits; exact P.
    + destruct (client_react st s1) as [st1 es] eqn:E. destruct (IHD st1) as (es' & s2 & st2 & R).
      eexists _, _, _. eapply client_goes_on; eassumption.
  - destruct (drains_total s) as (obs & s' & D). revert st.
    induction D as [s s' P | s s1 f obs s' P D IHD]; intros st.
    + destruct (IH (enqueue s' x) st) as (es & s2 & st2 & R). eexists _, _, _. eapply client_reads; eassumption.
    + destruct (client_react st s1) as [st1 es] eqn:E. destruct (IHD st1) as (es' & s2 & st2 & R).
      eexists _, _, _. eapply client_goes_on; eassumption.
Qed.
(** What the client sees once the greeting is through *)
Lemma sees_responses obs : sees_all AwaitResponses obs =
  (AwaitResponses, map EvResponse (flat_map (of_obs decode_response) obs)).
Proof.
  induction obs as [| o obs IH]; [reflexivity |]. cbn [sees_all sees flat_map]. now rewrite IH, map_app.
Qed.
Lemma of_obs_le E A (dec : bytes -> outcome E A) o : of_obs dec o = [] \/ exists r, of_obs dec o = [r].
Proof. unfold of_obs. destruct (ob_complete o); eauto. Qed.
(** ... and before *)
Lemma sees_greeting obs : forall st2 es, sees_all AwaitGreeting obs = (st2, es) ->
  exists bad, Forall (fun r => forall g, r <> DMOk g) bad /\
    ((st2 = AwaitGreeting /\ es = map EvGreeting bad) \/
     (st2 = AwaitResponses /\ exists g rs, es = map EvGreeting bad ++ EvGreeting (DMOk g) :: map EvResponse rs)).
Proof.
  induction obs as [| o obs IH]; intros st2 es.
  - intros [= <- <-]. exists []. split; [constructor | now left].
  - cbn [sees_all sees]. destruct (of_obs_le _ _ decode_greeting o) as [E | (r & E)]; rewrite E.
    + destruct (sees_all AwaitGreeting obs) as [st e]. intros [= <- <-]. apply IH. reflexivity.
    + assert (K : (exists g, r = DMOk g) \/ forall g, r <> DMOk g) by (destruct r; eauto; right; intros g; discriminate).
      destruct K as [(g & ->) | K].
      * rewrite sees_responses. intros [= <- <-]. exists []. split; [constructor |]. right. split; [reflexivity |]. eexists g, _. reflexivity.
      * assert (K2 : match r with DMOk _ => AwaitResponses | _ => AwaitGreeting end = AwaitGreeting)
          by (destruct r; try reflexivity; now destruct (K a)).
        cbn [map]. rewrite K2. destruct (sees_all AwaitGreeting obs) as [st e]. intros [= <- <-].
        destruct (IH _ _ eq_refl) as (bad & Hb & H). exists (r :: bad). split; [now constructor |].
        destruct H as [(-> & ->) | (-> & g & rs & ->)]; [left | right; split; [| exists g, rs]]; auto.
Qed.
(** One message *)
Definition reads (max : option N) (m : bytes) (st : client_state) : client_state * list client_event :=
  match st with
  | AwaitGreeting =>
    let r := if too_long max m then DMTooLong (limited max m) else decide decode_greeting (limited max m) in
    (match r with DMOk _ => AwaitResponses | _ => AwaitGreeting end, [EvGreeting r])
  | AwaitResponses =>
    (AwaitResponses, [EvResponse (if too_long max m then DMTooLong (limited max m)
                                  else decide decode_response (limited max m))])
  end.
Lemma sees_expected max l : forall acc msg st,
  sees_all st (expected max msg (as_seen (frags acc (l ++ e_crlf)))) = reads max (msg ++ acc ++ dump (l ++ e_crlf)) st.
Proof.
  induction l as [| [b | is8 m d] l IH]; intros acc msg st.
  - rewrite app_nil_l, frags_last. destruct st; reflexivity.
  - cbn [app frags]. rewrite IH. rewrite <- !app_assoc. reflexivity.
  - cbn [app frags as_seen expected ends_message sees_all frag_bytes].
    match goal with |- context [sees st ?o] => replace (sees st o) with (st, @nil client_event) by (destruct st; reflexivity) end.
    match goal with |- context [sees st ?o] => replace (sees st o) with (st, @nil client_event) by (destruct st; reflexivity) end.
    rewrite IH. cbn [dump flat_map dump_op app]. fold (dump (l ++ e_crlf)). rewrite <- !app_assoc.
    now destruct (reads _ _ _).
Qed.
Lemma reads_greeting max m g : decode_greeting m = Decoded [] g -> too_long max m = false ->
  reads max m AwaitGreeting = (AwaitResponses, [EvGreeting (DMOk g)]).
Proof.
  intros D T. unfold reads. rewrite T, (limited_fits _ _ T). unfold decide. now rewrite D.
Qed.
Lemma reads_long_greeting max m : too_long max m = true ->
  reads max m AwaitGreeting = (AwaitGreeting, [EvGreeting (DMTooLong (limited max m))]).
Proof. intros T. unfold reads. now rewrite T. Qed.
Lemma reads_response max m r : decode_response m = Decoded [] r ->
  reads max m AwaitResponses = (AwaitResponses, [EvResponse (received max m r)]).
Proof.
  intros D. unfold reads, received. destruct (too_long max m) eqn:T; [reflexivity |].
  rewrite (limited_fits _ _ T). unfold decide. now rewrite D.
Qed.
(** Messages of any kind, one after the other *)
Fixpoint reads_all (max : option N) (ms : list bytes) (st : client_state) : client_state * list client_event :=
  match ms with
  | [] => (st, [])
  | m :: ms' => let '(st1, e1) := reads max m st in let '(st2, e2) := reads_all max ms' st1 in (st2, e1 ++ e2)
  end.
Lemma drains_messages max rest : forall (msgs : list (list op)) obs s,
  Forall (fun e => exists l, e = l ++ e_crlf /\ sound l) msgs ->
  drains (enqueue (frag_new max) (concat (map (fun e => dump_fragments (fragments e)) msgs) ++ rest)) obs s ->
  exists obs2 s2, drains (enqueue (frag_new max) rest) obs2 s2 /\
    forall st, sees_all st obs =
      let '(st1, e1) := reads_all max (map (fun e => dump_fragments (fragments e)) msgs) st in
      let '(st2, e2) := sees_all st1 obs2 in (st2, e1 ++ e2).
Proof.
  induction msgs as [| e msgs IH]; intros obs s Hs D.
  - exists obs, s. split; [exact D |]. intros st. cbn. now destruct (sees_all st obs).
  - inversion Hs as [| x y (l & -> & Sl) Hs']; subst. cbn [map concat] in D. rewrite <- app_assoc in D.
    assert (R : forall y obs s, drains (enqueue (frag_new max) y) obs s -> run_drain (frag_new max) [Enqueue y] obs s).
    { intros y o s0 D0. exists (enqueue (frag_new max) y), [], o. auto. }
    destruct (fun H => agree max l _ [Enqueue _] obs s Sl H (app_nil_r _) (R _ _ _ D)) as (obs1 & s1 & R1 & ->); [now repeat constructor |].
    apply run_drain_one_shot in R1; [| now repeat constructor]. cbn [fed flat_map] in R1. rewrite app_nil_r in R1.
    destruct (IH _ _ Hs' R1) as (obs2 & s2 & D2 & E2). exists obs2, s2. split; [exact D2 |]. intros st.
    rewrite sees_app, fragments_frags, sees_expected. cbn [map reads_all]. rewrite fragments_frags, dump_frags. cbn [app].
    destruct (reads max _ st) as [st1 e1]. rewrite E2.
    destruct (reads_all max _ st1) as [st2 e2]. destruct (sees_all st2 obs2) as [st3 e3]. now rewrite app_assoc.
Qed.
(** The loop as a function, for examples *)
Fixpoint go (k : nat) (s : fragmentizer) (st : client_state) (chunks : list bytes)
  : option (list client_event * fragmentizer * client_state) :=
  match k with
  | 0 => None
  | S k =>
    let '(s1, f) := progress s in
    match f, chunks with
    | None, [] => Some ([], s1, st)
    | None, x :: chunks => go k (enqueue s1 x) st chunks
    | Some _, _ =>
      let '(st1, es) := client_react st s1 in
      match go k s1 st1 chunks with Some (es', s2, st2) => Some (es ++ es', s2, st2) | None => None end
    end
  end.
Lemma go_runs k : forall s st chunks es s2 st2, go k s st chunks = Some (es, s2, st2) -> client_runs s st chunks es s2 st2.
Proof.
  induction k as [| k IH]; intros s st chunks es s2 st2; [discriminate |]. cbn [go].
  destruct (progress s) as [s1 [f |]] eqn:P.
  - destruct (client_react st s1) as [st1 e1] eqn:Er. destruct (go k s1 st1 chunks) as [[[e2 z] zt] |] eqn:G; [| discriminate].
    intros [= <- <- <-]. eapply client_goes_on; [exact P | exact Er |]. now apply IH.
  - destruct chunks as [| x chunks]; [intros [= <- <- <-]; now apply client_waits |].
    intros G. eapply client_reads; [exact P |]. now apply IH.
Qed.
End Client.

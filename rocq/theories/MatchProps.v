(** C76: a client finds the answer to each of its commands, in whatever order the server answers them and whatever else it
    sends in between, as soon as the answer has arrived, and never takes another response for it. *)

From Coq Require Import Permutation.
From Verif Require Import Bytes BytesFacts Features Nom Types Conv ParseResp EncodeCtx Encode EncodeFacts EncodeApi Valid OtherCode Decode DecodeSpec DecodeProps Fragmentizer FragSpec FragFacts StreamSpec
  Ctors ValueSpec ValueFacts ValueProps Grammar GrammarProps SyncSpec SyncFacts SyncProps RoundTripSpec RoundTripProps StreamProps AbnfSpec FramedFacts FramedProps AnswerProps.
Open Scope nat_scope.

(** The tags of the tagged responses *)
Definition reply_tag (r : response) : option bytes := match r with RStatus (StTagged t _) => Some t | _ => None end.
Definition reply_tags (rs : list response) : list bytes := flat_map (fun r => match reply_tag r with Some t => [t] | None => [] end) rs.
(** What a client that waits for the answer to the command with the tag [tag] picks from what it received *)
Definition is_for (tag : bytes) (r : response) : bool := match reply_tag r with Some t => beqs t tag | None => false end.
Definition picked {E} (tag : bytes) (got : list (decode_message_result E response)) : list response :=
  flat_map (fun m => match m with DMOk r => if is_for tag r then [r] else [] | _ => [] end) got.

(** ** A beginning of a stream *)
Lemma cut (ms : list bytes) : Forall (fun m => m <> []) ms -> forall p later, p ++ later = concat ms ->
  exists k u, k <= length ms /\ p = concat (firstn k ms) ++ u /\ (u = [] \/ exists m v, nth_error ms k = Some m /\ m = u ++ v /\ v <> []) /\
    (k < length ms -> exists m v, nth_error ms k = Some m /\ m = u ++ v /\ v <> []).
Proof.
  induction 1 as [| m ms M Ms IH]; intros p later E.
  - cbn in E. apply app_eq_nil in E as [-> ->]. exists 0, []. cbn. repeat split; auto. lia.
  - cbn in E. apply app_eq_app in E as (l & [[-> E] | [-> E]]).
    + symmetry in E. destruct (IH l later E) as (k & u & K & -> & U & W). exists (S k), u. cbn. rewrite <- app_assoc. split; [lia |].
      split; [reflexivity |]. split; [exact U |]. intros L. apply W. lia.
    + destruct l as [| b l].
      * rewrite app_nil_r in *. cbn in E. destruct (IH [] later E) as (k & u & K & P & U & W).
        exists (S k), u. cbn. rewrite <- app_assoc, <- P, app_nil_r. split; [lia |]. split; [reflexivity |]. split; [exact U |]. intros L. apply W. lia.
      * exists 0, p. cbn. split; [lia |]. split; [reflexivity |].
        assert (X : exists m' v, Some (p ++ b :: l) = Some m' /\ m' = p ++ v /\ v <> []) by (eexists _, (b :: l); repeat split; discriminate).
        split; auto.
Qed.

Lemma concat_firstn_le (ms : list bytes) j k : j <= k -> length (concat (firstn j ms)) <= length (concat (firstn k ms)).
Proof.
  revert j k. induction ms as [| m ms IH]; intros j k L; [rewrite !firstn_nil; auto |].
  destruct j as [| j]; [cbn; lia |]. destruct k as [| k]; [lia |]. cbn. rewrite !app_length. specialize (IH j k). lia.
Qed.
Lemma concat_firstn_S (ms : list bytes) k m : nth_error ms k = Some m -> concat (firstn (S k) ms) = concat (firstn k ms) ++ m.
Proof.
  revert k. induction ms as [| x ms IH]; intros [| k] E; cbn in *; try discriminate.
  - injection E as ->. now rewrite app_nil_r.
  - rewrite <- app_assoc. f_equal. now apply IH.
Qed.

Section Match.
Context {F : features}.
Lemma w_reply_tag r : reply_tag (w_response r) = reply_tag r.
Proof. destruct r as [[] | [] | []]; reflexivity. Qed.
Lemma picked_none tag (rs : list response) {E} : ~ In tag (reply_tags rs) ->
  picked (E := E) tag (map (fun r => DMOk (w_response r)) rs) = [].
Proof.
  induction rs as [| r rs IH]; intros N; [reflexivity |]. cbn [map picked flat_map reply_tags] in *.
  assert (N2 : ~ In tag (reply_tags rs)) by (intros K; apply N, in_or_app; now right).
  change (flat_map _ (map _ rs)) with (picked (E := E) tag (map (fun r => DMOk (w_response r)) rs)). rewrite (IH N2), app_nil_r.
  unfold is_for. rewrite w_reply_tag. destruct (reply_tag r) as [t |]; [| reflexivity].
  destruct (beqs_spec t tag) as [-> | _]; [| reflexivity]. exfalso. apply N. now left.
Qed.
Lemma picked_app {E} tag (a b : list (decode_message_result E response)) : picked tag (a ++ b) = picked tag a ++ picked tag b.
Proof. apply flat_map_app. Qed.

(** A response that this model and the other side agree on (C10, C24) *)
Definition sendable (r : response) : Prop := v_response LDecoded other_name r = true /\ has_modseq r = false /\ quiet_response r.
Definition wire (rs : list response) : bytes := concat (map (fun r => dump_fragments (encode_response r)) rs).

(** What is received from a beginning of the stream *)
Lemma received_beginning : ext_utf8 = false -> forall rs ops later got,
  Forall sendable rs -> feeds ops -> fed ops ++ later = wire rs -> receives decode_response (frag_new None) ops got ->
  exists k, got = map (fun r => DMOk (w_response r)) (firstn k rs) /\
    (forall j, j <= length rs -> (j <= k <-> length (wire (firstn j rs)) <= length (fed ops))).
Proof.
  intros U rs ops later got V Hf E R.
  assert (D : forall r, sendable r -> decode_response (dump_fragments (encode_response r)) = Decoded [] (w_response r)).
  { intros r (V1 & V2 & _). pose proof (C10_response r V1 V2 []) as D. now rewrite app_nil_r in D. }
  assert (M : forall r, sendable r -> message (dump_fragments (encode_response r))).
  { intros r S. destruct (C57_response_consumes U _ _ _ (D r S)) as (m & X & Q & _). rewrite app_nil_r in X. rewrite X. apply Q.
    destruct S as (_ & _ & S). destruct r as [[] | [] | []]; exact S. }
  set (ms := map (fun r => dump_fragments (encode_response r)) rs) in *.
  assert (Mm : Forall message ms) by (apply Forall_map; revert V; apply Forall_impl; exact M).
  assert (Ne : Forall (fun m : bytes => m <> []) ms).
  { revert Mm. apply Forall_impl. intros m Hm ->. apply message_has_lf in Hm. exact Hm. }
  destruct (cut ms Ne _ _ E) as (k & u & K & P & W & W').
  assert (Lm : length ms = length rs) by apply map_length.
  assert (Uu : unfinished u).
  { destruct W as [-> | (m & v & I & -> & Hv)].
    - intros m rest X Hm. symmetry in X. apply app_eq_nil in X as [-> _]. apply message_has_lf in Hm. exact Hm.
    - apply (beginning_unfinished u v); [| exact Hv]. apply nth_error_In in I. rewrite Forall_forall in Mm. exact (Mm _ I). }
  exists k. split.
  - assert (Mk : messages (fed ops) (firstn k ms) u).
    { split; [exact P |]. split; [| exact Uu]. clear -Mm. revert k. induction Mm as [| m ms H Mm IH]; intros [| k]; cbn; constructor; auto. }
    rewrite (C57_receiver _ _ _ _ _ _ _ _ Hf Mk R). unfold ms. rewrite firstn_map, map_map. apply map_ext_in. intros r I.
    assert (S : sendable r).
    { rewrite Forall_forall in V. apply V. rewrite <- (firstn_skipn k rs). apply in_or_app. now left. }
    unfold judged. cbn. now rewrite (D r S).
  - intros j Lj. unfold wire. rewrite <- firstn_map. fold ms. rewrite P, app_length. split.
    + intros H. pose proof (concat_firstn_le ms j k H). lia.
    + intros H. destruct (le_lt_dec j k) as [X | X]; [exact X | exfalso].
      destruct (W' ltac:(lia)) as (m & v & I & -> & Hv).
      pose proof (concat_firstn_le ms (S k) j X) as Y. rewrite (concat_firstn_S _ _ _ I), !app_length in Y.
      destruct v; [contradiction | cbn in Y; lia].
Qed.

Lemma reply_split tag rs : In tag (reply_tags rs) -> NoDup (reply_tags rs) ->
  exists l1 b l2, rs = l1 ++ RStatus (StTagged tag b) :: l2 /\ ~ In tag (reply_tags l1) /\ ~ In tag (reply_tags l2).
Proof.
  induction rs as [| r rs IH]; intros I N; [destruct I |]. cbn [reply_tags flat_map] in I, N. fold (reply_tags rs) in I, N.
  destruct (reply_tag r) as [t |] eqn:T.
  - cbn [app] in I, N. inversion N as [| ? ? N1 N2]; subst. destruct I as [<- | I].
    + destruct r as [| | [| t' b |]]; try discriminate. injection T as ->. exists [], b, rs. repeat split; auto.
    + destruct (IH I N2) as (l1 & b & l2 & -> & A & B). exists (r :: l1), b, l2. split; [reflexivity |]. split; [| exact B].
      cbn [reply_tags flat_map]. rewrite T. intros [-> | K]; [contradiction | now apply A].
  - destruct (IH I N) as (l1 & b & l2 & -> & A & B). exists (r :: l1), b, l2. split; [reflexivity |]. split; [| exact B].
    cbn [reply_tags flat_map]. now rewrite T.
Qed.

(** ** C76 *)
(** The server sends any responses, among them one tagged response for each of the tags, in any order. A client that has
    received some beginning of them, in whatever pieces, has found the answer to a tag if and only if its last byte has
    arrived; it then has found this one answer only. *)
Theorem C76_found : ext_utf8 = false -> forall tags rs ops later got,
  NoDup tags -> Permutation (reply_tags rs) tags -> Forall sendable rs ->
  feeds ops -> fed ops ++ later = wire rs -> receives decode_response (frag_new None) ops got ->
  forall tag, In tag tags -> exists before b after,
    rs = before ++ RStatus (StTagged tag b) :: after /\
    (length (wire (before ++ [RStatus (StTagged tag b)])) <= length (fed ops) ->
       picked tag got = [RStatus (StTagged tag (w_status_body b))]) /\
    (length (fed ops) < length (wire (before ++ [RStatus (StTagged tag b)])) -> picked tag got = []).
Proof.
  intros U tags rs ops later got N P V Hf E R tag I.
  assert (I' : In tag (reply_tags rs)) by (apply (Permutation_in _ (Permutation_sym P)); exact I).
  assert (N' : NoDup (reply_tags rs)) by (apply (Permutation_NoDup (Permutation_sym P)); exact N).
  destruct (reply_split tag rs I' N') as (l1 & b & l2 & Ers & A & B). exists l1, b, l2. split; [exact Ers |].
  destruct (received_beginning U rs ops later got V Hf E R) as (k & -> & K).
  assert (L : length rs = length l1 + S (length l2)) by (rewrite Ers, app_length; reflexivity).
  specialize (K (S (length l1)) ltac:(lia)).
  assert (X : firstn (S (length l1)) rs = l1 ++ [RStatus (StTagged tag b)]).
  { rewrite Ers, firstn_app, firstn_all2 by lia. replace (S (length l1) - length l1) with 1 by lia. reflexivity. }
  rewrite X in K. split; intros H.
  - apply K in H. rewrite Ers, firstn_app, firstn_all2 by lia. rewrite map_app, picked_app, (picked_none _ _ A).
    replace (k - length l1) with (S (k - S (length l1))) by lia. cbn [firstn map app]. unfold picked at 1. cbn [flat_map]. unfold is_for at 1. cbn [w_response reply_tag].
    rewrite beqs_refl. cbn [app]. f_equal. apply picked_none. intros J. apply B. rewrite <- (firstn_skipn (k - S (length l1)) l2).
    unfold reply_tags. rewrite flat_map_app. apply in_or_app. now left.
  - assert (Kl : k <= length l1) by (apply Nat.nlt_ge; intros Y; apply K in Y; lia).
    rewrite Ers, firstn_app. replace (k - length l1) with 0 by lia. cbn [firstn]. rewrite app_nil_r. apply picked_none.
    intros J. apply A. rewrite <- (firstn_skipn k l1). unfold reply_tags. rewrite flat_map_app. apply in_or_app. now left.
Qed.
(** Nothing is found for a tag that no tagged response has. *)
Theorem C76_nothing : ext_utf8 = false -> forall rs ops later got tag,
  Forall sendable rs -> feeds ops -> fed ops ++ later = wire rs -> receives decode_response (frag_new None) ops got ->
  ~ In tag (reply_tags rs) -> picked tag got = [].
Proof.
  intros U rs ops later got tag V Hf E R N. destruct (received_beginning U rs ops later got V Hf E R) as (k & -> & _).
  apply picked_none. intros J. apply N. rewrite <- (firstn_skipn k rs). unfold reply_tags. rewrite flat_map_app. apply in_or_app. now left.
Qed.
(** The whole way: a client takes its tags from generators (C37) and sends its commands; the server reads them and sends one
    tagged response for each answer it has to give (C74), in any order and between any other responses; the client then finds
    one response for each of its commands, and it is one that the server sent with the command's tag. *)
Theorem C76_session : ext_utf8 = false -> forall debug events w cs max ops asked rs ops' got,
  only_existing 0 events -> debug = true \/ tokens_alnum events ->
  (count_events creates events <= 2 ^ 64)%N -> (forall i, (count_events (uses i) events <= 2 ^ 64)%N) ->
  tag_run debug tag_start events = Some w -> map cmd_tag cs = tw_tags w ->
  Forall (fun c => v_command_body LDecoded (cmd_body c) = true) cs -> (forall n, max = Some n -> Forall (fun c => (lenN (cmd_tag c) < n)%N) cs) ->
  feeds ops -> fed ops = concat (map (fun c => dump_fragments (encode_command c)) cs) -> answers (frag_new max) ops asked ->
  Permutation (map Some (reply_tags rs)) asked -> Forall sendable rs ->
  feeds ops' -> fed ops' = wire rs -> receives decode_response (frag_new None) ops' got ->
  forall c, In c cs -> exists b, In (RStatus (StTagged (cmd_tag c) b)) rs /\ picked (cmd_tag c) got = [RStatus (StTagged (cmd_tag c) (w_status_body b))].
Proof.
  intros U debug events w cs max ops asked rs ops' got H1 H2 H3 H4 Hw Hc V L Hf E A P Vr Hf' E' R c Ic.
  destruct (C37_unique debug events H1 H2 H3 H4) as (w' & Hw' & N & T & _). rewrite Hw in Hw'. injection Hw' as <-. rewrite <- Hc in N, T.
  assert (V2 : Forall (fun c => v_command LDecoded c = true) cs).
  { rewrite Forall_forall in *. intros x Ix. unfold v_command. apply andb_true_iff. split; [| now apply V].
    apply tag_ok_spec. apply T. now apply in_map. }
  assert (Un : unfinished []).
  { intros m rest X K. symmetry in X. apply app_eq_nil in X as [-> _]. now apply message_has_lf in K. }
  rewrite (C74_pipelined U cs max ops asked [] V2 Un Hf ltac:(now rewrite app_nil_r) L A) in P.
  rewrite <- (map_map cmd_tag Some) in P.
  assert (P2 : Permutation (reply_tags rs) (map cmd_tag cs)).
  { apply (Permutation_map (fun o : option bytes => match o with Some t => t | None => [] end)) in P. rewrite !map_map, !map_id in P. exact P. }
  destruct (C76_found U (map cmd_tag cs) rs ops' [] got N P2 Vr Hf' ltac:(now rewrite app_nil_r) R (cmd_tag c) (in_map _ _ _ Ic)) as (l1 & b & l2 & X & Y & _).
  exists b. split; [rewrite X; apply in_elt |]. apply Y. rewrite E', X. unfold wire. rewrite !map_app, !concat_app, !app_length. cbn. rewrite !app_length. cbn. lia.
Qed.
End Match.
Print Assumptions C76_found.
Print Assumptions C76_nothing.
Print Assumptions C76_session.

(** Two commands with generated tags; the server answers the second one first and sends data in between. *)
Definition ex_events : list tag_event := [TNew; TGenerate 0 []; TGenerate 0 []].
Definition ex_cs : list command := [mkCommand (bs "0.0") CNoop; mkCommand (bs "0.1") CCheck].
Definition ex_rs : list response :=
  [RData (DExists 3%N); RStatus (StTagged (bs "0.1") (mkStatusBody SKOk None (bs "checked"))); RData (DExpunge 2%N);
   RStatus (StUntagged (mkStatusBody SKOk None (bs "0.0 OK")));
   RStatus (StTagged (bs "0.0") (mkStatusBody SKNo None (bs "busy")))].
Example C76_hyp : let F := default_features in
  only_existing 0 ex_events /\ option_map tw_tags (tag_run true tag_start ex_events) = Some (map cmd_tag ex_cs) /\
  Forall (fun c => v_command_body LDecoded (cmd_body c) = true) ex_cs /\
  Permutation (map Some (reply_tags ex_rs)) [Some (bs "0.0"); Some (bs "0.1")] /\ Forall sendable ex_rs.
Proof.
  intros F. split; [cbn; lia |]. split; [vm_compute; reflexivity |].
  split; [apply Forall_cons; [reflexivity | apply Forall_cons; [reflexivity | apply Forall_nil]] |].
  split; [apply perm_swap |].
  assert (Q : forall t, ~ In "{"%byte (t ++ [bCR; bLF]) -> quiet t).
  { intros t N a (pre & ds & el & H & _). apply N. rewrite H. apply in_or_app. right. now left. }
  repeat apply Forall_cons; try apply Forall_nil; (split; [vm_compute; reflexivity |]); (split; [reflexivity |]); try exact I;
    apply Q; cbn; intros I; repeat (destruct I as [I | I]; [discriminate |]); exact I.
Qed.
Example C76_run : let F := default_features in
  let ops n := [Enqueue (firstn n (wire ex_rs))] ++ repeat Progress 8 in
  let got n := snd (receive decode_response (frag_new None) (ops n)) in
  length (wire ex_rs) = 67 /\
  picked (bs "0.1") (got 27) = [] /\
  picked (bs "0.1") (got 28) = [RStatus (StTagged (bs "0.1") (mkStatusBody SKOk None (bs "checked")))] /\
  picked (bs "0.0") (got 66) = [] /\
  picked (bs "0.0") (got 67) = [RStatus (StTagged (bs "0.0") (mkStatusBody SKNo None (bs "busy")))].
Proof. vm_compute. repeat split. Qed.

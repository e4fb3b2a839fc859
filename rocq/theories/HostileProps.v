(** C77: the example server with any client, also one that sends garbage. *)

From Coq Require Import Wf_nat.
From Verif Require Import Bytes BytesFacts Features Nom Types Utf8 Conv Decode DecodeProps Fragmentizer FragSpec FragFacts Session SessionFacts ServerRun.
Open Scope nat_scope.

Section Hostile.
Context {F : features}.
Variable lim : N.

(** ** The reaction does not depend on bytes that are still to be parsed *)
Lemma react_enqueue st s f x s2 st2 rs es : react lim st s f = (s2, st2, rs, es) ->
  react lim st (enqueue s x) f = (enqueue s2 x, st2, rs, es).
Proof.
  unfold react. change (decode_tag (enqueue s x)) with (decode_tag s).
  change (is_message_complete (enqueue s x)) with (is_message_complete s).
  change (decode_message decode_command (enqueue s x)) with (decode_message decode_command s).
  change (decode_message decode_authenticate_data (enqueue s x)) with (decode_message decode_authenticate_data s).
  change (decode_message decode_idle_done (enqueue s x)) with (decode_message decode_idle_done s).
  destruct f as [? ? [[[|] n] |] ? | ? ?];
    try (destruct (N.leb n lim); [| destruct (decode_tag s)]);
    try (destruct (is_message_complete s); [destruct st |]);
    try (destruct (decode_message _ s) as [c | | | | |]; [try destruct (cmd_body c) | ..]);
    intros [= <- <- <- <-]; reflexivity.
Qed.

(** ** All bytes at once *)
Inductive serves : fragmentizer -> server_state -> list reply -> list event -> fragmentizer -> server_state -> Prop :=
| serves_waits s s' st : progress s = (s', None) -> serves s st [] [] s' st
| serves_goes_on s s1 f s1' st st1 rs es rs' es' s2 st2 :
    progress s = (s1, Some f) -> react lim st s1 f = (s1', st1, rs, es) ->
    serves s1' st1 rs' es' s2 st2 -> serves s st (rs ++ rs') (es ++ es') s2 st2.
Lemma serves_fun s st rs es s2 st2 : serves s st rs es s2 st2 -> forall rs' es' s2' st2', serves s st rs' es' s2' st2' ->
  rs = rs' /\ es = es' /\ s2 = s2' /\ st2 = st2'.
Proof.
  induction 1 as [s s' st P | s s1 f s1' st st1 rs es rs0 es0 s2 st2 P R S IH]; intros rs' es' s2' st2' K;
    inversion K as [a b c P' | a b g d c c1 r1 e1 r2 e2 ? ? P' R' S']; subst; rewrite P in P'; try discriminate P'.
  - injection P' as <-. auto.
  - injection P' as <- <-. rewrite R in R'. injection R' as <- <- <- <-. destruct (IH _ _ _ _ S') as (-> & -> & -> & ->). auto.
Qed.
Lemma runs_serves s st chunks rs es s2 st2 : server_runs lim s st chunks rs es s2 st2 ->
  serves (enqueue s (concat chunks)) st rs es s2 st2.
Proof.
  induction 1 as [s s' st P | s s' st x chunks rs es s2 st2 P R IH | s s1 f s1' st st1 rs es chunks rs' es' s2 st2 P Er R IH].
  - cbn. rewrite enqueue_nil. now apply serves_waits.
  - cbn [concat]. rewrite enqueue_app in IH. pose proof (progress_none_enqueue _ (x ++ concat chunks) _ P) as K.
    inversion IH; subst; [apply serves_waits | eapply serves_goes_on; [| eassumption | eassumption]]; now rewrite K.
  - eapply serves_goes_on; [exact (progress_some_enqueue _ (concat chunks) _ _ P) | exact (react_enqueue _ _ _ _ _ _ _ _ Er) | exact IH].
Qed.

(** ** Lines *)
Definition lines (t : bytes) : nat := length (filter (fun b => beq b bLF) t).
Lemma lines_app a b : lines (a ++ b) = lines a + lines b.
Proof. unfold lines. now rewrite filter_app, app_length. Qed.
Lemma lines_skipn n : forall t, lines (skipn n t) <= lines t.
Proof. intros t. rewrite <- (firstn_skipn n t) at 2. rewrite lines_app. lia. Qed.
Lemma step_lf lb b lb' r : line_step lb b = (lb', Some r) -> b = bLF.
Proof.
  destruct lb; cbn [line_step]; destruct (beq b bCR); try discriminate; destruct (beq b bLF) eqn:E; try (intros _; now apply beq_eq);
    repeat match goal with |- context [if ?c then _ else _] => destruct c end; try discriminate;
    match goal with |- context [push_digit ?l b] => destruct (push_digit l b); discriminate | _ => idtac end.
Qed.
Lemma line_parse_lines i : forall p p' n f, line_parse p i = (p', n, Some f) -> lines (skipn n i) < lines i.
Proof.
  induction i as [| b i IH]; intros p p' n f; cbn [line_parse]; [discriminate |].
  destruct (line_step (lp_latest p) b) as [lb [[ann e] |]] eqn:E.
  - intros [= <- <- <-]. apply step_lf in E as ->. cbn [skipn]. unfold lines. cbn. lia.
  - destruct (line_parse _ i) as [[q k] g] eqn:L. intros [= <- <- ->]. apply IH in L. cbn [skipn].
    change (lines (b :: i)) with (lines ([b] ++ i)). rewrite lines_app. lia.
Qed.
Lemma progress_lines s s' f : progress s = (s', Some f) ->
  lines (unparsed s') <= lines (unparsed s) /\
  match f with FLine _ _ _ _ => lines (unparsed s') < lines (unparsed s) | FLiteral _ _ => is_message_complete s' = false end.
Proof.
  unfold progress. destruct (start_message s) as [s0 p] eqn:E0.
  assert (Hu : unparsed s0 = unparsed s) by (unfold start_message in E0; destruct (fparser_of s); inversion E0; reflexivity).
  rewrite Hu. destruct (parse_fragment p (unparsed s)) as [[p' n] [g |]] eqn:E; [| discriminate].
  intros [= <- <-]. cbn [set_parser unparsed]. rewrite dequeue_unparsed. cbn [set_parser unparsed]. rewrite Hu.
  split; [apply lines_skipn |].
  destruct p as [lp | tp]; cbn [parse_fragment] in E.
  - destruct (line_parse lp (unparsed s)) as [[lp' k] h] eqn:El. injection E as <- <- ->.
    destruct g; [exact (line_parse_lines _ _ _ _ _ El) |].
    exfalso. clear -El. revert lp lp' k El. induction (unparsed s) as [| b i IH]; intros lp lp' k; cbn [line_parse]; [discriminate |].
    destruct (line_step _ _) as [lb [[a e] |]]; [discriminate |]. destruct (line_parse _ i) as [[q m] h] eqn:L. intros [= <- <- ->]. exact (IH _ _ _ L).
  - unfold literal_parse in E. match type of E with context[if ?c then _ else _] => destruct c end; [discriminate |]. injection E as <- <- <-. reflexivity.
Qed.
Lemma react_parts st s f s2 st2 rs es : react lim st s f = (s2, st2, rs, es) ->
  unparsed s2 = unparsed s /\ length rs <= 1 /\ length es <= 1 /\
  match f with FLiteral _ _ => is_message_complete s = false -> rs = [] /\ es = [] | _ => True end.
Proof.
  unfold react. destruct f as [? ? [[[|] n] |] ? | ? ?];
    try (destruct (N.leb n lim); [| destruct (decode_tag s)]);
    try (destruct (is_message_complete s); [destruct st |]);
    try (destruct (decode_message _ s) as [c | | | | |]; [try destruct (cmd_body c) | ..]);
    intros [= <- <- <- <-]; cbn; repeat split; auto; discriminate.
Qed.
Lemma serves_lines s st rs es s2 st2 : serves s st rs es s2 st2 -> length rs <= lines (unparsed s) /\ length es <= lines (unparsed s).
Proof.
  induction 1 as [s s' st P | s s1 f s1' st st1 rs es rs0 es0 s2 st2 P R S (I1 & I2)]; cbn [length]; [lia |].
  apply progress_lines in P as (P1 & P2). apply react_parts in R as (U & R1 & R2 & R3). rewrite U in I1, I2. rewrite !app_length.
  destruct f; [lia |]. destruct (R3 P2) as (-> & ->). cbn. lia.
Qed.

(** ** What is kept, what is learned *)
Definition event_kept (e : event) : bytes :=
  match e with
  | EvCommand (DMTooLong b) | EvCommand (DMPoisoned b) | EvData (DMTooLong b) | EvData (DMPoisoned b)
  | EvDone (DMTooLong b) | EvDone (DMPoisoned b) | EvRefused b => b
  | _ => []
  end.
Definition panicked (e : event) : Prop := e = EvCommand DMPanic \/ e = EvData DMPanic \/ e = EvDone DMPanic.
Definition fine (max : N) (e : event) : Prop := ~ panicked e /\ (lenN (event_kept e) <= max)%N.
Lemma decode_message_fine E A (dec : bytes -> outcome E A) s : (forall i, dec i <> Panic) -> decode_message dec s <> DMPanic /\
  (forall b, decode_message dec s = DMTooLong b \/ decode_message dec s = DMPoisoned b -> b = buffer s).
Proof.
  intros N. unfold decode_message. destruct (exceeded s); [split; [discriminate | now intros b [[= <-] | K]] |].
  destruct (poisoned s); [split; [discriminate | now intros b [K | [= <-]]] |].
  pose proof (N (buffer s)) as K. destruct (dec (buffer s)) as [[| b r] m | e |]; [..| contradiction];
    (split; [discriminate | intros c [X | X]; discriminate X]).
Qed.
Lemma find_sp_len i : forall t, find_sp i = Some t -> length t <= length i.
Proof.
  induction i as [| b i IH]; intros t; cbn [find_sp]; [discriminate |]. destruct (beq b bSP); [intros [= <-]; cbn; lia |].
  destruct (beq b bLF); [discriminate |]. destruct (find_sp i) as [u |]; [| discriminate]. intros [= <-]. cbn. specialize (IH u eq_refl). lia.
Qed.
Lemma react_fine max st s f s2 st2 rs es : react lim st s f = (s2, st2, rs, es) ->
  max_size s = Some max -> bounded s -> Forall (fine max) es /\ max_size s2 = Some max /\ bounded s2.
Proof.
  intros R M B. assert (L : (lenN (buffer s) <= max)%N) by (unfold bounded in B; rewrite M in B; exact B).
  destruct (decode_message_fine _ _ decode_command s (fun i => proj1 (C20_no_panic i))) as (N1 & K1).
  destruct (decode_message_fine _ _ decode_authenticate_data s (fun i => proj1 (proj2 (proj2 (proj2 (C20_no_panic i)))))) as (N2 & K2).
  destruct (decode_message_fine _ _ decode_idle_done s (fun i => proj2 (proj2 (proj2 (proj2 (C20_no_panic i)))))) as (N3 & K3).
  assert (T : forall t, decode_tag s = Some t -> (lenN t <= max)%N).
  { intros t. unfold decode_tag, parse_tag. destruct (find_sp (buffer s)) as [u |] eqn:E; [| discriminate].
    destruct (utf8_ok u && tag_ok u); [| discriminate]. intros [= <-]. apply find_sp_len in E. unfold lenN in *. lia. }
  assert (Z : (lenN (@nil byte) <= max)%N) by (unfold lenN; cbn; lia).
  assert (B1 : bounded (skip_message s)) by (unfold bounded; cbn [skip_message max_size buffer]; rewrite M; exact Z).
  assert (Q : forall e, fine max e -> Forall (fine max) [e]) by (intros e Y; now apply Forall_cons).
  revert R. unfold react. destruct f as [? ? [[[|] n] |] ? | ? ?];
    try (destruct (N.leb n lim); [| destruct (decode_tag s) as [t |]]);
    try (destruct (is_message_complete s); [destruct st |]);
    try match goal with |- context [decode_message decode_command s] => destruct (decode_message decode_command s) as [c | | | | |] eqn:D; [destruct (cmd_body c) | ..] end;
    try match goal with |- context [decode_message decode_authenticate_data s] => destruct (decode_message decode_authenticate_data s) as [c | | | | |] eqn:D end;
    try match goal with |- context [decode_message decode_idle_done s] => destruct (decode_message decode_idle_done s) as [c | | | | |] eqn:D end;
    try (exfalso; (now apply N1) || (now apply N2) || (now apply N3));
    intros [= <- <- <- <-]; (split; [| split; [exact M || (cbn; exact M) | exact B || exact B1]]); try apply Forall_nil; apply Q;
    (split; [intros [X | [X | X]]; discriminate X |]); cbn [event_kept]; try exact Z; try (now apply T);
    first [rewrite (K1 _ (or_introl eq_refl)) | rewrite (K1 _ (or_intror eq_refl)) | rewrite (K2 _ (or_introl eq_refl))
      | rewrite (K2 _ (or_intror eq_refl)) | rewrite (K3 _ (or_introl eq_refl)) | rewrite (K3 _ (or_intror eq_refl))]; exact L.
Qed.
Lemma runs_fine max s st chunks rs es s2 st2 : server_runs lim s st chunks rs es s2 st2 -> max_size s = Some max -> bounded s ->
  Forall (fine max) es /\ max_size s2 = Some max /\ bounded s2.
Proof.
  induction 1 as [s s' st P | s s' st x chunks rs es s2 st2 P R IH | s s1 f s1' st st1 rs es chunks rs' es' s2 st2 P Er R IH]; intros M B;
    destruct (progress_bounded s B) as (M' & B'); rewrite P in M', B'; cbn [fst] in M', B'; rewrite M in M'.
  - auto.
  - apply IH; assumption.
  - destruct (react_fine _ _ _ _ _ _ _ _ Er M' B') as (E1 & M1 & B1). destruct (IH M1 B1) as (E2 & K). split; [| exact K].
    apply Forall_app. auto.
Qed.

Lemma progress_none_unparsed s s' : progress s = (s', None) -> unparsed s' = [].
Proof.
  unfold progress. destruct (start_message s) as [s0 p] eqn:E0.
  assert (Hu : unparsed s0 = unparsed s) by (unfold start_message in E0; destruct (fparser_of s); inversion E0; reflexivity).
  rewrite Hu. destruct (parse_fragment p (unparsed s)) as [[p' n] [g |]] eqn:E; [discriminate |].
  intros [= <-]. rewrite dequeue_unparsed. cbn [set_parser unparsed]. rewrite Hu.
  assert (L : n = length (unparsed s)); [| rewrite L; apply skipn_all].
  destruct p as [lp | tp]; cbn [parse_fragment] in E.
  - destruct (line_parse lp (unparsed s)) as [[lp' k] h] eqn:El. injection E as <- <- ->. exact (proj1 (line_parse_none_app _ _ [] _ _ El)).
  - unfold literal_parse in E. match type of E with context[if ?c then _ else _] => destruct c end; [| discriminate]. now injection E as <- <-.
Qed.

(** ** C77 *)
(** Whatever the client sends and however it arrives, the server comes back to waiting for more. *)
Theorem C77_total : forall max chunks, exists rs es s st, server_starts lim max chunks rs es s st.
Proof.
  intros max chunks. unfold server_starts. generalize (frag_new (Some max)) AwaitCommand.
  induction chunks as [| x chunks IH]; intros s; remember (pending s) as k eqn:Ek; revert s Ek; induction k as [k IHk] using lt_wf_ind; intros s -> st;
    (destruct (progress s) as [s1 [f |]] eqn:P;
     [destruct (react lim st s1 f) as [[[s2 st2] rs] es] eqn:R;
      assert (L : pending s2 < pending s) by (pose proof (progress_pending _ _ _ P); destruct (react_pending _ _ _ _ _ _ _ _ R); lia);
      destruct (IHk _ L s2 eq_refl st2) as (rs' & es' & s3 & st3 & K);
      eexists _, _, _, _; eapply server_goes_on; eassumption |]).
  - eexists _, _, _, _. eapply server_waits; exact P.
  - destruct (IH (enqueue s1 x) st) as (rs & es & s2 & st2 & K). eexists _, _, _, _. eapply server_reads; eassumption.
Qed.
(** What it sends, what it learns and the state it ends in depend on the bytes only, not on how they arrive. *)
Theorem C77_chunking : forall max chunks1 chunks2 rs1 es1 s1 st1 rs2 es2 s2 st2, concat chunks1 = concat chunks2 ->
  server_starts lim max chunks1 rs1 es1 s1 st1 -> server_starts lim max chunks2 rs2 es2 s2 st2 ->
  rs1 = rs2 /\ es1 = es2 /\ s1 = s2 /\ st1 = st2.
Proof.
  intros max chunks1 chunks2 rs1 es1 s1 st1 rs2 es2 s2 st2 E R1 R2. apply runs_serves in R1, R2. rewrite E in R1.
  exact (serves_fun _ _ _ _ _ _ R1 _ _ _ _ R2).
Qed.
(** It does not take back what it has sent and learned, and holds nothing back until more bytes arrive. *)
Theorem C77_online : forall max chunks more rs es s st, server_starts lim max (chunks ++ more) rs es s st ->
  exists rs1 es1 s1 st1 rs2 es2, server_starts lim max chunks rs1 es1 s1 st1 /\ rs = rs1 ++ rs2 /\ es = es1 ++ es2.
Proof.
  intros max chunks more rs es s st. unfold server_starts. generalize (frag_new (Some max)) AwaitCommand.
  intros f0 st0 R. remember (chunks ++ more) as all eqn:E. revert chunks E.
  induction R as [z z' st' P | z z' st' x cs rs es s2 st2 P R IH | z z1 f z1' st' st1 rs es cs rs' es' s2 st2 P Er R IH]; intros chunks E.
  - symmetry in E. apply app_eq_nil in E as (-> & ->). exists [], [], z', st', [], []. split; [now apply server_waits | auto].
  - destruct chunks as [| y chunks].
    + exists [], [], z', st', rs, es. split; [now apply server_waits | auto].
    + injection E as <- ->. destruct (IH _ eq_refl) as (rs1 & es1 & s1 & st1 & rs2 & es2 & R1 & -> & ->).
      exists rs1, es1, s1, st1, rs2, es2. split; [now apply server_reads with z' | auto].
  - destruct (IH _ E) as (rs1 & es1 & s1' & st1' & rs2 & es2 & R1 & -> & ->).
    exists (rs ++ rs1), (es ++ es1), s1', st1', rs2, es2. split; [now apply server_goes_on with z1 f z1' st1 | now rewrite !app_assoc].
Qed.
(** It never panics; while it waits it holds at most [max] bytes, all of the current message, and what it is given of a message that is too long or was
    given up is at most that. *)
Theorem C77_limits : forall max chunks rs es s st, server_starts lim max chunks rs es s st ->
  unparsed s = [] /\ (lenN (message_bytes s) <= max)%N /\ (forall e, In e es -> ~ panicked e /\ (lenN (event_kept e) <= max)%N).
Proof.
  intros max chunks rs es s st R. destruct (runs_fine max _ _ _ _ _ _ _ R eq_refl) as (E & M & B).
  { unfold bounded, lenN. cbn. lia. }
  split; [clear -R; unfold server_starts in R; induction R; [now apply progress_none_unparsed with s | assumption | assumption] |].
  split; [unfold bounded in B; rewrite M in B; exact B |]. intros e I. rewrite Forall_forall in E. exact (E e I).
Qed.
(** It sends at most one line for each line it receives, and reports at most one message for each. *)
Theorem C77_no_flood : forall max chunks rs es s st, server_starts lim max chunks rs es s st ->
  length rs <= lines (concat chunks) /\ length es <= lines (concat chunks).
Proof. intros max chunks rs es s st R. apply runs_serves, serves_lines in R. exact R. Qed.
(** Its answers: it says OK once for each AUTHENTICATE, with its tag, in order and after the data for it, except for the
    last AUTHENTICATE if it still waits for data; and it says BAD with the tag of each message whose literal it has refused.
    An IDLE has ended when DONE has been received, except for the last one. *)
Definition okay_tags (rs : list reply) : list bytes := flat_map (fun r => match r with Okay t => [t] | _ => [] end) rs.
Definition bad_tags (rs : list reply) : list bytes := flat_map (fun r => match r with Bad t => [t] | _ => [] end) rs.
Definition auth_tags (es : list event) : list bytes :=
  flat_map (fun e => match e with
                     | EvCommand (DMOk c) => match cmd_body c with CAuthenticate _ _ => [cmd_tag c] | _ => [] end
                     | _ => []
                     end) es.
Definition idles (es : list event) : list unit :=
  flat_map (fun e => match e with EvCommand (DMOk c) => match cmd_body c with CIdle => [tt] | _ => [] end | _ => [] end) es.
Definition data_of (es : list event) : list authenticate_data := flat_map (fun e => match e with EvData (DMOk a) => [a] | _ => [] end) es.
Definition dones (es : list event) : list unit := flat_map (fun e => match e with EvDone (DMOk u) => [u] | _ => [] end) es.
Definition refused_tags (es : list event) : list bytes := flat_map (fun e => match e with EvRefused t => [t] | _ => [] end) es.
Definition awaited (st : server_state) : list bytes := match st with AwaitData t => [t] | _ => [] end.
Definition idling (st : server_state) : list unit := match st with AwaitDone => [tt] | _ => [] end.
Lemma react_answers st s f s2 st2 rs es : react lim st s f = (s2, st2, rs, es) ->
  awaited st ++ auth_tags es = okay_tags rs ++ awaited st2 /\ idling st ++ idles es = dones es ++ idling st2 /\
  length (okay_tags rs) = length (data_of es) /\ bad_tags rs = refused_tags es.
Proof.
  unfold react. destruct f as [? ? [[[|] n] |] ? | ? ?];
    try (destruct (N.leb n lim); [| destruct (decode_tag s)]);
    try (destruct (is_message_complete s); [destruct st |]);
    try (destruct (decode_message _ s) as [[] | | | | |]; [try match goal with c : command_body |- _ => destruct c end | ..]);
    intros [= <- <- <- <-]; cbn; rewrite ?app_nil_r; auto.
Qed.
Theorem C77_answers : forall max chunks rs es s st, server_starts lim max chunks rs es s st ->
  auth_tags es = okay_tags rs ++ awaited st /\ idles es = dones es ++ idling st /\
  length (okay_tags rs) = length (data_of es) /\ bad_tags rs = refused_tags es.
Proof.
  intros max chunks rs es s st R. change (auth_tags es) with (awaited AwaitCommand ++ auth_tags es).
  change (idles es) with (idling AwaitCommand ++ idles es). unfold server_starts in R.
  induction R as [z z' st' P | z z' st' x cs rs es s2 st2 P R IH | z z1 f z1' st' st1 rs es cs rs' es' s2 st2 P Er R IH].
  - cbn. rewrite !app_nil_r. auto.
  - exact IH.
  - apply react_answers in Er as (A & B & C & D). destruct IH as (A' & B' & C' & D').
    unfold auth_tags, okay_tags, idles, dones, data_of, bad_tags, refused_tags in *. rewrite !flat_map_app, !app_length.
    split; [rewrite app_assoc, A, <- !app_assoc; now f_equal |]. split; [rewrite app_assoc, B, <- !app_assoc; now f_equal |].
    split; congruence.
Qed.
End Hostile.
Print Assumptions C77_total.
Print Assumptions C77_chunking.
Print Assumptions C77_online.
Print Assumptions C77_limits.
Print Assumptions C77_no_flood.
Print Assumptions C77_answers.

(** ** The theorems are not vacuous *)
(** A line that is no command; a literal that is too large, in a message with a tag; one in a message without a tag, which
    is given up; an AUTHENTICATE, wrong data, data; a line that is too long; half a line. *)
Module HostileExamples.
#[local] Existing Instance default_features.
Definition nl : bytes := [bCR; bLF].
Definition attack : list bytes :=
  [bs "GET / HTTP" ++ nl ++ bs "a LOGIN {9"; bs "9}" ++ nl; bs "{77}" ++ nl; repeat "x"%byte 77 ++ nl;
   bs "b AUTHENTICATE PLAIN" ++ nl ++ bs "?" ++ nl ++ bs "AAAA" ++ nl; repeat "y"%byte 99; bs "z" ++ nl ++ bs "c NO"].
Ltac go := first [ eapply server_waits; [vm_compute; reflexivity] | eapply server_reads; [vm_compute; reflexivity | go]
  | eapply server_goes_on; [vm_compute; reflexivity | vm_compute; reflexivity | go] ].
Example C77_run : exists es s st, server_starts 10 40 attack [Bad (bs "a"); Plus; Okay (bs "b")] es s st /\
  map event_kept es = [[]; bs "a"; bs "{77}" ++ nl ++ repeat "x"%byte 34; []; []; []; repeat "y"%byte 40] /\
  length es = 7 /\ auth_tags es = [bs "b"] /\ length (data_of es) = 1 /\ refused_tags es = [bs "a"] /\ message_bytes s = bs "c NO" /\ lines (concat attack) = 8.
Proof.
  eexists _, _, _. split.
  - unfold server_starts, attack.
    change [Bad (bs "a"); Plus; Okay (bs "b")] with
      ([] ++ [Bad (bs "a")] ++ [] ++ [] ++ [] ++ [Plus] ++ [] ++ [Okay (bs "b")] ++ [] ++ @nil reply).
    go.
  - split; [vm_compute; reflexivity |]. split; [vm_compute; reflexivity |].
    repeat split; vm_compute; reflexivity.
Qed.
End HostileExamples.

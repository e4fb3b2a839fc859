(** Proofs about sessions, for SessionProps.v. *)

From Coq Require Import Wf_nat.
From Verif Require Import Bytes BytesFacts Dec Features Nom Types Utf8 Conv ParseResp EncodeCtx Encode EncodeFacts
  EncodeApi Decode Valid ValidFacts EncFragFacts LineFacts Fragmentizer FragSpec FragFacts RtResp
  RoundTripSpec RoundTripProps StreamSpec StreamFacts StreamProps Session SessionSpec.
Open Scope nat_scope.

Section Session.
Context {F : features}.
Variables max lim : N.
Notation M := (Some max).

(** ** The server on its own *)
(** Rounds of the loop until [progress] returns nothing *)
Inductive settles (s : fragmentizer) (st : server_state)
  : list reply -> list event -> fragmentizer -> server_state -> Prop :=
| settles_none s' : progress s = (s', None) -> settles s st [] [] s' st
| settles_some s1 f s2 st2 rs es rs' es' s' st' :
    progress s = (s1, Some f) -> react lim st s1 f = (s2, st2, rs, es) ->
    settles s2 st2 rs' es' s' st' -> settles s st (rs ++ rs') (es ++ es') s' st'.

Lemma react_enqueue st s f x s2 st2 rs es : react lim st s f = (s2, st2, rs, es) ->
  react lim st (enqueue s x) f = (enqueue s2 x, st2, rs, es).
Proof.
  unfold react.
  change (is_message_complete (enqueue s x)) with (is_message_complete s).
  change (decode_tag (enqueue s x)) with (decode_tag s).
  change (decode_message decode_command (enqueue s x)) with (decode_message decode_command s).
  change (decode_message decode_authenticate_data (enqueue s x)) with (decode_message decode_authenticate_data s).
  change (decode_message decode_idle_done (enqueue s x)) with (decode_message decode_idle_done s).
  assert (K : (if is_message_complete s then
      match st with
      | AwaitCommand =>
        match decode_message decode_command s with
        | DMOk c =>
          match cmd_body c with
          | CAuthenticate _ _ => (s, AwaitData (cmd_tag c), [Plus], [EvCommand (decode_message decode_command s)])
          | CIdle => (s, AwaitDone, [Plus], [EvCommand (decode_message decode_command s)])
          | _ => (s, AwaitCommand, [], [EvCommand (decode_message decode_command s)])
          end
        | _ => (s, AwaitCommand, [], [EvCommand (decode_message decode_command s)])
        end
      | AwaitData t =>
        match decode_message decode_authenticate_data s with
        | DMOk _ => (s, AwaitCommand, [Okay t], [EvData (decode_message decode_authenticate_data s)])
        | _ => (s, AwaitData t, [], [EvData (decode_message decode_authenticate_data s)])
        end
      | AwaitDone =>
        match decode_message decode_idle_done s with
        | DMOk _ => (s, AwaitCommand, [], [EvDone (decode_message decode_idle_done s)])
        | _ => (s, AwaitDone, [], [EvDone (decode_message decode_idle_done s)])
        end
      end
    else (s, st, [], [])) = (s2, st2, rs, es) ->
    (if is_message_complete s then
      match st with
      | AwaitCommand =>
        match decode_message decode_command s with
        | DMOk c =>
          match cmd_body c with
          | CAuthenticate _ _ => (enqueue s x, AwaitData (cmd_tag c), [Plus], [EvCommand (decode_message decode_command s)])
          | CIdle => (enqueue s x, AwaitDone, [Plus], [EvCommand (decode_message decode_command s)])
          | _ => (enqueue s x, AwaitCommand, [], [EvCommand (decode_message decode_command s)])
          end
        | _ => (enqueue s x, AwaitCommand, [], [EvCommand (decode_message decode_command s)])
        end
      | AwaitData t =>
        match decode_message decode_authenticate_data s with
        | DMOk _ => (enqueue s x, AwaitCommand, [Okay t], [EvData (decode_message decode_authenticate_data s)])
        | _ => (enqueue s x, AwaitData t, [], [EvData (decode_message decode_authenticate_data s)])
        end
      | AwaitDone =>
        match decode_message decode_idle_done s with
        | DMOk _ => (enqueue s x, AwaitCommand, [], [EvDone (decode_message decode_idle_done s)])
        | _ => (enqueue s x, AwaitDone, [], [EvDone (decode_message decode_idle_done s)])
        end
      end
    else (enqueue s x, st, [], [])) = (enqueue s2 x, st2, rs, es)).
  { destruct (is_message_complete s); [| now intros [= <- <- <- <-]].
    destruct st.
    - destruct (decode_message decode_command s) as [c | | | | |] eqn:E; try (now intros [= <- <- <- <-]).
      destruct (cmd_body c); now intros [= <- <- <- <-].
    - destruct (decode_message decode_authenticate_data s); now intros [= <- <- <- <-].
    - destruct (decode_message decode_idle_done s); now intros [= <- <- <- <-]. }
  destruct f as [? ? [[[|] n] |] ? | ? ?]; try exact K.
  destruct (N.leb n lim); [now intros [= <- <- <- <-] |].
  destruct (decode_tag s); now intros [= <- <- <- <-].
Qed.
Lemma settles_enqueue s st rs es s' st' x rs2 es2 s2 st2 :
  settles s st rs es s' st' -> settles (enqueue s' x) st' rs2 es2 s2 st2 ->
  settles (enqueue s x) st (rs ++ rs2) (es ++ es2) s2 st2.
Proof.
  intros H H2. induction H as [s st s' E | s st s1 f sa sta rs es rs' es' s' st' E Er H IH].
  - pose proof (progress_none_enqueue _ x _ E) as K. cbn [app].
    inversion H2; subst; [apply settles_none | eapply settles_some; [| eassumption | eassumption]]; now rewrite K.
  - rewrite <- !app_assoc. eapply settles_some.
    + exact (progress_some_enqueue _ x _ _ E).
    + exact (react_enqueue _ _ _ x _ _ _ _ Er).
    + exact (IH H2).
Qed.

(** ** One fragment *)
(** The fragmentizer has read everything and is at the start of a fragment. *)
Definition at_rest (msg : bytes) (e : expectation) (z : fragmentizer) : Prop :=
  at_start M msg e z /\ unparsed z = [].
Definition waits (e : expectation) : Prop := match e with ExpectLine => True | ExpectLiteral n => (0 < n)%N end.
Lemma rest_none msg e s : ready M msg e s -> unparsed s = [] -> waits e ->
  exists z, progress s = (z, None) /\ at_rest msg e z.
Proof.
  intros R U W. apply start_ready in R as (s0 & E0 & (Hm & Hp & Hb & He & Hpo) & Eu).
  unfold progress. rewrite E0, Eu, U. rewrite U in Eu.
  assert (K : parse_fragment (parser_for (length msg) e) [] = (parser_for (length msg) e, 0, None)).
  { destruct e as [| n]; [reflexivity |]. cbn [parser_for parse_fragment waits] in *. unfold literal_parse.
    cbn [tp_remaining new_literal_parser lenN length N.of_nat].
    apply N.ltb_lt in W. rewrite W. unfold new_literal_parser. cbn. now rewrite Nat.add_0_r, N.sub_0_r. }
  rewrite K. eexists. split; [reflexivity |]. unfold dequeue. cbn [set_parser unparsed max_size buffer fparser_of].
  rewrite Eu, Hm. cbn [firstn skipn]. rewrite firstn_nil, app_nil_r.
  match goal with |- context [if ?c then _ else _] => replace c with false end.
  2: { symmetry. apply Nat.ltb_ge. lia. }
  unfold at_rest, at_start. cbn. auto 10.
Qed.
Lemma rest_some msg e z f : at_rest msg e z ->
  (match e, f with
   | ExpectLine, Line l ann ending => is_line l /\ announcement_of l ann /\ ending_of l ending
   | ExpectLiteral n, Literal d => lenN d = n
   | _, _ => False
   end) ->
  exists s1, progress (enqueue z (frag_bytes f)) = (s1, Some (info_of (length msg) f)) /\ unparsed s1 = [] /\
    max_size s1 = M /\ buffer s1 = limited M (msg ++ frag_bytes f) /\ exceeded s1 = too_long M (msg ++ frag_bytes f) /\
    poisoned s1 = false /\ is_message_complete s1 = ends_message f /\
    ready M (if ends_message f then [] else msg ++ frag_bytes f)
      (match f with Line _ ann _ => after_line ann | Literal _ => ExpectLine end) s1.
Proof.
  intros (A & U) H. assert (R : ready M msg e (enqueue z (frag_bytes f))) by now left.
  apply progress_ready in R as [(g & r & s1 & Eu & Ep & Hg & K) | (Hn & _)].
  - cbn [enqueue unparsed] in Eu. rewrite U in Eu. cbn [app] in Eu.
    assert (Q : g = f /\ r = []).
    { destruct e as [| n].
      - destruct f as [l ann en |]; [| contradiction]. destruct g as [l' ann' en' |]; [| contradiction].
        destruct H as (H1 & H2 & H3), Hg as (G1 & G2 & G3). cbn [frag_bytes] in Eu.
        rewrite <- (app_nil_r l) in Eu. destruct (line_prefix_fun _ _ _ _ H1 G1 Eu) as [<- <-].
        now rewrite (announcement_of_fun _ _ _ H2 G2), (ending_of_fun _ _ _ H3 G3).
      - destruct f as [| d]; [contradiction |]. destruct g as [| d']; [contradiction |]. cbn [frag_bytes] in Eu.
        subst n d. unfold lenN in Hg. rewrite app_length in Hg. destruct r as [| b r]; [now rewrite app_nil_r |].
        cbn [length] in Hg. lia. }
    destruct Q as [-> ->]. exists s1. rewrite Ep. tauto.
  - exfalso. cbn [enqueue unparsed] in Hn. rewrite U in Hn. cbn [app] in Hn. destruct e as [| n].
    + destruct f as [l ann en |]; [| contradiction]. destruct H as ((t & -> & _) & _). apply Hn. cbn. apply in_or_app. right. now left.
    + destruct f as [| d]; [contradiction |]. subst n. cbn in Hn. lia.
Qed.

(** The fragments that are still to come *)
Definition expect (fs : list fragment) : expectation :=
  match fs with
  | FrLiteral (b :: d) _ :: _ => ExpectLiteral (lenN (b :: d))
  | _ => ExpectLine
  end.
Lemma expect_waits fs : waits (expect fs).
Proof. destruct fs as [| [| [| b d] m] fs]; cbn; auto. unfold lenN. cbn [length]. lia. Qed.
(** Lines that announce the literals after them *)
Fixpoint nice (fs : list fragment) : Prop :=
  match fs with
  | FrLine s :: r =>
    is_line s /\ ending_of s CrLf /\
    match r with
    | [] => announcement_of s None
    | FrLiteral d m :: r => announcement_of s (Some (mkAnn m (lenN d))) /\ nice r
    | _ => False
    end
  | _ => False
  end.
Definition nice_from (fs : list fragment) : Prop :=
  match fs with FrLiteral d m :: r => nice r | _ => nice fs end.
Lemma nice_ops l : forall acc, clean_lines (frags acc (l ++ e_crlf)) -> forallb short l = true -> quiet (final acc l) ->
  nice (frags acc (l ++ e_crlf)).
Proof.
  induction l as [| [b | is8 m d] l IH]; intros acc C Hs Q.
  - rewrite app_nil_l in *. rewrite frags_last in *. inversion_clear C. cbn [nice].
    split; [assumption |]. split; [now exists acc | exact Q].
  - cbn [app frags final forallb short] in *. exact (IH _ C Hs Q).
  - cbn [app frags final forallb short] in *. apply andb_true_iff in Hs as [Hd Hs].
    inversion_clear C. inversion_clear H0. cbn [nice].
    split; [assumption |]. split; [destruct (header_crlf acc is8 m (lenN d)) as (t & -> & _); now exists (acc ++ t) |].
    split; [apply header_ann, N.leb_le, Hd |]. exact (IH [] H2 Hs Q).
Qed.
Lemma nice_nonempty fs : nice fs -> fs <> [].
Proof. now destruct fs. Qed.

(** A line that announces a literal *)
Definition big (f : fragment) : bool := match f with FrLiteral d Sync => N.ltb lim (lenN d) | _ => false end.
Definition asked (f : fragment) : list reply := match f with FrLiteral _ Sync => [Plus] | _ => [] end.
Lemma settle_rest s st msg e : ready M msg e s -> unparsed s = [] -> waits e ->
  exists z, settles s st [] [] z st /\ at_rest msg e z.
Proof.
  intros R U W. destruct (rest_none _ _ _ R U W) as (z & E & A). exists z. split; [now apply settles_none | exact A].
Qed.
(** At the start of the literal [d]; an empty literal is read at once *)
Lemma settle_literal_start s st msg d m r : ready M msg (ExpectLiteral (lenN d)) s -> unparsed s = [] ->
  exists z, settles s st [] [] z st /\ at_rest msg (expect (FrLiteral d m :: r)) z.
Proof.
  intros R U. destruct d as [| b d].
  - cbn [lenN length N.of_nat] in R. apply start_ready in R as (s0 & E0 & (Hm & Hp & Hb & He & Hpo) & Eu).
    assert (P : exists s1, progress s = (s1, Some (FLiteral (length msg) (length msg + 0))) /\
                 at_start M msg ExpectLine s1 /\ unparsed s1 = []).
    { unfold progress. rewrite E0, Eu, U. cbn. eexists. split; [reflexivity |]. rewrite U in Eu.
      unfold dequeue. cbn [set_parser unparsed max_size buffer fparser_of]. rewrite Eu, Hm. cbn.
      unfold at_start. cbn. rewrite app_nil_r. rewrite Nat.add_0_r. auto 10. }
    destruct P as (s1 & P & A1 & U1). destruct (settle_rest s1 st msg ExpectLine) as (z & Hz & Az); [now left | assumption | exact I |].
    exists z. split; [| exact Az].
    change (@nil reply) with (@nil reply ++ []). change (@nil event) with (@nil event ++ []).
    eapply settles_some; [exact P | | exact Hz]. cbn [react].
    destruct A1 as (_ & A1 & _). unfold is_message_complete. now rewrite A1.
  - apply settle_rest; [exact R | exact U |]. cbn. unfold lenN. cbn [length]. lia.
Qed.
Lemma settle_line z st msg l d m r : at_rest msg ExpectLine z -> nice (FrLine l :: FrLiteral d m :: r) ->
  big (FrLiteral d m) = false ->
  exists z', settles (enqueue z l) st (asked (FrLiteral d m)) [] z' st /\
    at_rest (msg ++ l) (expect (FrLiteral d m :: r)) z'.
Proof.
  intros A (N1 & N2 & N3 & _) Hb.
  destruct (rest_some msg ExpectLine z (Line l (Some (mkAnn m (lenN d))) CrLf) A) as (s1 & Ep & U & Hm & HB & He & Hpo & Hc & R);
    [auto |].
  cbn [frag_bytes ends_message info_of after_line ann_length] in *.
  destruct (settle_literal_start s1 st _ d m r R U) as (z' & Hz & Az). exists z'. split; [| exact Az].
  rewrite <- (app_nil_r (asked _)). change (@nil event) with (@nil event ++ []).
  eapply settles_some; [exact Ep | | exact Hz]. destruct m; cbn [react asked].
  - cbn [big] in Hb. apply N.ltb_ge in Hb. apply N.leb_le in Hb. now rewrite Hb.
  - now rewrite Hc.
Qed.
Lemma settle_refused z st msg l d m r tag : at_rest msg ExpectLine z -> nice (FrLine l :: FrLiteral d m :: r) ->
  big (FrLiteral d m) = true -> parse_tag (limited M (msg ++ l)) = Some tag ->
  exists z', settles (enqueue z l) st [Bad tag] [EvRefused tag] z' st /\ at_rest [] ExpectLine z'.
Proof.
  intros A (N1 & N2 & N3 & _) Hb Ht.
  destruct (rest_some msg ExpectLine z (Line l (Some (mkAnn m (lenN d))) CrLf) A) as (s1 & Ep & U & Hm & HB & He & Hpo & Hc & R);
    [auto |].
  cbn [frag_bytes ends_message info_of after_line ann_length] in *.
  destruct (settle_rest (skip_message s1) st [] ExpectLine) as (z' & Hz & Az); [| exact U | exact I |].
  { left. unfold at_start, skip_message. cbn [max_size fparser_of buffer exceeded poisoned].
    rewrite limited_nil, too_long_nil. auto. }
  exists z'. split; [| exact Az].
  change [Bad tag] with ([Bad tag] ++ []). change [EvRefused tag] with ([EvRefused tag] ++ []).
  eapply settles_some; [exact Ep | | exact Hz]. destruct m; cbn [react big] in *; [| discriminate].
  apply N.ltb_lt in Hb. replace (N.leb (lenN d) lim) with false by (symmetry; apply N.leb_gt; exact Hb).
  unfold decode_tag. now rewrite HB, Ht.
Qed.
Lemma settle_literal z st msg d m r : at_rest msg (expect (FrLiteral d m :: r)) z ->
  exists z', settles (enqueue z d) st [] [] z' st /\ at_rest (msg ++ d) ExpectLine z'.
Proof.
  intros A. destruct d as [| b d].
  - rewrite enqueue_nil, app_nil_r. destruct A as [A U]. apply settle_rest; [now left | exact U | exact I].
  - cbn [expect] in A. destruct (rest_some msg _ z (Literal (b :: d)) A) as (s1 & Ep & U & Hm & HB & He & Hpo & Hc & R);
      [reflexivity |].
    cbn [frag_bytes ends_message info_of] in *.
    destruct (settle_rest s1 st _ _ R U I) as (z' & Hz & Az). exists z'. split; [| exact Az].
    change (@nil reply) with (@nil reply ++ []). change (@nil event) with (@nil event ++ []).
    eapply settles_some; [exact Ep | | exact Hz]. cbn [react]. now rewrite Hc.
Qed.

(** The last line of a message: what the server does with it *)
Definition answers (st : server_state) (m : bytes) (st' : server_state) (rs : list reply) (es : list event) : Prop :=
  match st with
  | AwaitCommand => exists c : command, decode_command m = Decoded [] c /\
      es = [EvCommand (received M m c)] /\
      (too_long M m = false ->
       match cmd_body c with
       | CAuthenticate _ _ => rs = [Plus] /\ st' = AwaitData (cmd_tag c)
       | CIdle => rs = [Plus] /\ st' = AwaitDone
       | _ => rs = [] /\ st' = AwaitCommand
       end) /\ (too_long M m = true -> rs = [] /\ st' = AwaitCommand)
  | AwaitData t => exists a, decode_authenticate_data m = Decoded [] a /\ too_long M m = false /\
      es = [EvData (DMOk a)] /\ rs = [Okay t] /\ st' = AwaitCommand
  | AwaitDone => decode_idle_done m = Decoded [] tt /\ too_long M m = false /\
      es = [EvDone (DMOk tt)] /\ rs = [] /\ st' = AwaitCommand
  end.
Lemma settle_last z st msg l st' rs es : at_rest msg ExpectLine z -> nice [FrLine l] ->
  answers st (msg ++ l) st' rs es ->
  exists z', settles (enqueue z l) st rs es z' st' /\ at_rest [] ExpectLine z'.
Proof.
  intros A (N1 & N2 & N3) Q.
  destruct (rest_some msg ExpectLine z (Line l None CrLf) A) as (s1 & Ep & U & Hm & HB & He & Hpo & Hc & R); [auto |].
  cbn [frag_bytes ends_message info_of after_line] in *.
  destruct (settle_rest s1 st' _ _ R U I) as (z' & Hz & Az). exists z'. split; [| exact Az].
  rewrite <- (app_nil_r rs), <- (app_nil_r es). eapply settles_some; [exact Ep | | exact Hz].
  cbn [react]. rewrite Hc. unfold decode_message. rewrite He, Hpo, HB. destruct st; cbn [answers] in Q.
  - destruct Q as (c & D & -> & Q1 & Q2). unfold received. destruct (too_long M (msg ++ l)) eqn:T.
    + now destruct (Q2 eq_refl) as [-> ->].
    + rewrite (limited_fits _ _ T), D. specialize (Q1 eq_refl). destruct (cmd_body c); now destruct Q1 as [-> ->].
  - destruct Q as (a & D & T & -> & -> & ->). now rewrite T, (limited_fits _ _ T), D.
  - destruct Q as (D & T & -> & -> & ->). now rewrite T, (limited_fits _ _ T), D.
Qed.

(** ** The session *)
Notation outcome_of := (outcome_of max lim).
Notation acceptable := (acceptable max).
(** In the middle of the command of [r]: [fs] has not been written, everything else has been read. *)
Definition middle (r : request) (fs : list fragment) (z : fragmentizer) : Prop :=
  exists pre, encode_command (rq_command r) = pre ++ fs /\ nice_from fs /\ existsb big pre = false /\
    (forall d m rest, fs = FrLiteral d m :: rest -> big (FrLiteral d m) = false) /\
    at_rest (dump_fragments pre) (expect fs) z.
Definition state_of (r : request) : server_state :=
  match cmd_body (rq_command r) with
  | CAuthenticate _ _ => AwaitData (cmd_tag (rq_command r)) | CIdle => AwaitDone | _ => AwaitCommand
  end.
Definition is_special (r : request) : Prop :=
  match cmd_body (rq_command r) with CAuthenticate _ _ | CIdle => True | _ => False end.
(** The client has [rs] to hear, and [more] is what the server has still to learn. *)
Definition view (p : phase) (rs : list reply) (more : list event) (z : fragmentizer) (st : server_state) : Prop :=
  match p with
  | Ready => rs = [] /\ more = [] /\ st = AwaitCommand /\ at_rest [] ExpectLine z
  | Writing r fs => acceptable r /\ rs = [] /\ more = outcome_of r /\ st = AwaitCommand /\ middle r fs z
  | WaitLiteral r fs => acceptable r /\
    ((rs = [Plus] /\ more = outcome_of r /\ st = AwaitCommand /\ middle r fs z) \/
     (rs = [Bad (cmd_tag (rq_command r))] /\ more = [] /\ st = AwaitCommand /\ at_rest [] ExpectLine z))
  | WaitPlus r => acceptable r /\ is_special r /\ rs = [Plus] /\ more = follow_up r /\ st = state_of r /\ at_rest [] ExpectLine z
  | WritingData r fs => acceptable r /\ is_special r /\ fs = data_fragments r /\ rs = [] /\ more = follow_up r /\ st = state_of r /\
      at_rest [] ExpectLine z
  | WaitOk r => rs = [Okay (cmd_tag (rq_command r))] /\ more = [] /\ st = AwaitCommand /\ at_rest [] ExpectLine z
  | Confused => False
  end.
Definition inv (all : list event) (n : net) : Prop :=
  exists rs es z st more,
    settles (enqueue (sv_frag (n_server n)) (n_up n)) (sv_state (n_server n)) rs es z st /\
    view (n_phase n) (n_down n ++ rs) more z st /\
    Forall acceptable (n_todo n) /\
    n_log n ++ es ++ more ++ flat_map outcome_of (n_todo n) = all /\
    (sv_blocked (n_server n) = true -> progress (sv_frag (n_server n)) = (sv_frag (n_server n), None)).

Lemma refused_big c : refused lim c = existsb big (encode_command c).
Proof. reflexivity. Qed.
Lemma nice_command r : acceptable r -> nice (encode_command (rq_command r)).
Proof.
  intros (V & U & _). destruct (sound_command _ V U) as (l & El & (C & S & Q)).
  unfold encode_command in *. rewrite El in *. rewrite fragments_frags in *. now apply nice_ops.
Qed.
(** The first line contains the tag. *)
Lemma frags_W t l : forall acc, frags acc (W t ++ l) = frags (acc ++ t) l.
Proof.
  induction t as [| b t IH]; intros acc; [now rewrite app_nil_r |]. cbn [W map app frags].
  change (map B t) with (W t). rewrite IH, <- app_assoc. reflexivity.
Qed.
Lemma frags_first l : forall acc f fs, frags acc l = f :: fs -> acc <> [] -> exists y, fragment_data f = acc ++ y.
Proof.
  induction l as [| [b | is8 m d] l IH]; intros acc f fs E Ha; cbn [frags] in E.
  - destruct acc; [contradiction |]. injection E as <- <-. exists []. cbn [fragment_data]. now rewrite app_nil_r.
  - destruct (IH _ _ _ E) as (y & Ey); [now destruct acc |]. exists (b :: y). rewrite Ey, <- app_assoc. reflexivity.
  - injection E as <- <-. eexists. reflexivity.
Qed.
Lemma tag_first r f fs : acceptable r -> encode_command (rq_command r) = f :: fs ->
  exists y, fragment_data f = cmd_tag (rq_command r) ++ bSP :: y.
Proof.
  intros (V & _) E. unfold encode_command in E. rewrite fragments_frags in E. unfold e_command in E.
  unfold e_bytes in E. rewrite frags_W in E. cbn [app spc frags] in E.
  apply frags_first in E as (y & Ey).
  - exists y. rewrite Ey. now rewrite <- app_assoc.
  - now destruct (cmd_tag (rq_command r)).
Qed.
Lemma tag_seen r pre fs : acceptable r -> encode_command (rq_command r) = pre ++ fs -> pre <> [] ->
  parse_tag (limited M (dump_fragments pre)) = Some (cmd_tag (rq_command r)).
Proof.
  intros A E Hp. destruct pre as [| f pre]; [contradiction |]. cbn [app] in E.
  destruct (tag_first _ _ _ A E) as (y & Ey). apply parse_tag_spec.
  destruct A as (V & _ & Hl & _). apply andb_true_iff in V as [V _]. split; [exact V |].
  cbn [dump_fragments flat_map]. rewrite Ey, <- app_assoc. cbn [app limited].
  rewrite firstn_app, firstn_all2 by (unfold lenN in Hl; lia).
  replace (N.to_nat max - length (cmd_tag (rq_command r))) with
    (S (N.to_nat max - length (cmd_tag (rq_command r)) - 1)) by (unfold lenN in Hl; lia).
  eexists. reflexivity.
Qed.
Lemma dump_fragments_app a b : dump_fragments (a ++ b) = dump_fragments a ++ dump_fragments b.
Proof. apply flat_map_app. Qed.
Lemma decode_sent r : acceptable r ->
  decode_command (dump_fragments (encode_command (rq_command r))) = Decoded [] (w_command (rq_command r)).
Proof. intros (V & _). pose proof (C09_command _ V []) as D. now rewrite app_nil_r in D. Qed.
Lemma w_body_special c : match cmd_body (w_command c) with
  | CAuthenticate _ _ => exists m i, cmd_body c = CAuthenticate m i
  | CIdle => cmd_body c = CIdle
  | _ => match cmd_body c with CAuthenticate _ _ | CIdle => False | _ => True end end.
Proof. destruct c as [t b]. destruct b; cbn; eauto. Qed.

(** Writing one fragment of a command *)
Lemma write_step r f fs z : acceptable r -> middle r (f :: fs) z ->
  exists rs es z' st' more, settles (enqueue z (fragment_data f)) AwaitCommand rs es z' st' /\
    view (written r fs) rs more z' st' /\ es ++ more = outcome_of r.
Proof.
  intros A (pre & E & Hn & Hb & Hs & Ar). destruct f as [l | d m].
  - cbn [nice_from expect fragment_data] in *. destruct fs as [| [l2 | d m] fs].
    + (* the last line *)
      assert (Em : dump_fragments pre ++ l = dump_fragments (encode_command (rq_command r))).
      { rewrite E, dump_fragments_app. cbn. now rewrite app_nil_r. }
      assert (Hr : refused lim (rq_command r) = false).
      { rewrite refused_big, E, existsb_app, Hb. reflexivity. }
      pose proof (decode_sent r A) as D. pose proof (w_body_special (rq_command r)) as W.
      assert (T : is_special r -> too_long M (dump_fragments pre ++ l) = false).
      { rewrite Em. destruct A as (_ & _ & _ & A). unfold is_special.
        destruct (cmd_body (rq_command r)); try contradiction; intros _; apply A. }
      destruct (settle_last z AwaitCommand _ l
        (if too_long M (dump_fragments pre ++ l) then AwaitCommand else state_of r)
        (if too_long M (dump_fragments pre ++ l) then [] else
           match cmd_body (rq_command r) with CAuthenticate _ _ | CIdle => [Plus] | _ => [] end)
        [EvCommand (received M (dump_fragments pre ++ l) (w_command (rq_command r)))] Ar Hn) as (z' & Hz & Az).
      { cbn [answers]. exists (w_command (rq_command r)). rewrite Em. split; [exact D |]. split; [reflexivity |].
        split; intros ->; [| auto]. unfold state_of.
        destruct (cmd_body (w_command (rq_command r))); cbn in W;
          try (destruct (cmd_body (rq_command r)); try contradiction; now split).
        destruct W as (? & ? & ->). now split. }
      exists (if too_long M (dump_fragments pre ++ l) then [] else
           match cmd_body (rq_command r) with CAuthenticate _ _ | CIdle => [Plus] | _ => [] end),
        [EvCommand (received M (dump_fragments pre ++ l) (w_command (rq_command r)))], z',
        (if too_long M (dump_fragments pre ++ l) then AwaitCommand else state_of r), (follow_up r).
      split; [exact Hz |]. split.
      * cbn [written]. unfold finished. unfold is_special, state_of, follow_up in *.
        destruct (cmd_body (rq_command r)) eqn:Eb; cbn [view];
          try solve [destruct (too_long M _); auto 10];
          rewrite (T I); unfold is_special, state_of, follow_up; rewrite Eb; auto 10.
      * unfold outcome_of. rewrite Hr, Em. reflexivity.
    + destruct Hn as (_ & _ & []).
    + assert (Ed : dump_fragments pre ++ l = dump_fragments (pre ++ [FrLine l])).
      { rewrite dump_fragments_app. cbn. now rewrite app_nil_r. }
      assert (Ea : encode_command (rq_command r) = (pre ++ [FrLine l]) ++ FrLiteral d m :: fs).
      { now rewrite <- app_assoc. }
      destruct (big (FrLiteral d m)) eqn:Hd.
      * assert (Ht := tag_seen r _ _ A Ea). rewrite <- Ed in Ht.
        destruct (settle_refused z AwaitCommand _ l d m fs _ Ar Hn Hd (Ht ltac:(now destruct pre))) as (z' & Hz & Az).
        destruct m; [| discriminate].
        exists [Bad (cmd_tag (rq_command r))], [EvRefused (cmd_tag (rq_command r))], z', AwaitCommand, [].
        split; [exact Hz |]. split; [cbn [written view]; auto 10 |].
        unfold outcome_of. rewrite refused_big, Ea, existsb_app. cbn [existsb].
        rewrite Hd, orb_true_l, orb_true_r. reflexivity.
      * destruct (settle_line z AwaitCommand _ l d m fs Ar Hn Hd) as (z' & Hz & Az).
        assert (Mi : middle r (FrLiteral d m :: fs) z').
        { exists (pre ++ [FrLine l]). split; [exact Ea |]. split; [apply Hn |]. split; [now rewrite existsb_app, Hb |].
          split; [intros ? ? ? Q; injection Q as <- <- <-; exact Hd |]. now rewrite <- Ed. }
        exists (asked (FrLiteral d m)), [], z', AwaitCommand, (outcome_of r). split; [exact Hz |].
        split; [| reflexivity]. destruct m; cbn [asked written view]; auto 10.
  - cbn [nice_from fragment_data] in *. destruct (settle_literal z AwaitCommand _ d m fs Ar) as (z' & Hz & Az).
    exists [], [], z', AwaitCommand, (outcome_of r). split; [exact Hz |]. split; [| reflexivity].
    destruct fs as [| [l | d2 m2] fs]; [contradiction | | contradiction]. cbn [written view].
    do 4 (split; [now auto |]). exists (pre ++ [FrLiteral d m]).
    split; [now rewrite <- app_assoc |]. split; [exact Hn |].
    split; [rewrite existsb_app, Hb; cbn [existsb]; now rewrite (Hs d m _ eq_refl) |]. split; [discriminate |].
    rewrite dump_fragments_app. cbn [dump_fragments flat_map fragment_data]. now rewrite app_nil_r.
Qed.
(** The data of AUTHENTICATE, and DONE, are one line. *)
Lemma data_line r : exists x, data_fragments r = [FrLine x] /\ nice [FrLine x].
Proof.
  assert (K : forall x, forallb plain x = true -> fragments (W x ++ e_crlf) = [FrLine (x ++ [bCR; bLF])] /\
                nice [FrLine (x ++ [bCR; bLF])]).
  { intros x P. assert (E : fragments (W x ++ e_crlf) = [FrLine (x ++ [bCR; bLF])]).
    { now rewrite fragments_frags, frags_W, frags_last. }
    split; [exact E |]. rewrite <- E. rewrite fragments_frags.
    assert (S : sound (W x)) by (apply sound_fine; [now apply fine_W | right; now apply line_clean]).
    destruct S as (C & S & Q). rewrite fragments_frags in C. now apply nice_ops. }
  assert (Hd : exists x, encode_idle_done tt = [FrLine x] /\ nice [FrLine x]).
  { exists (bs "DONE" ++ [bCR; bLF]). now apply (K (bs "DONE")). }
  assert (Ha : exists x, encode_authenticate_data (rq_data r) = [FrLine x] /\ nice [FrLine x]).
  { unfold encode_authenticate_data. destruct (rq_data r) as [d |].
    - exists (Base64.b64_encode d ++ [bCR; bLF]). apply K. apply plain_b64.
    - exists (bs "*" ++ [bCR; bLF]). now apply (K (bs "*")). }
  unfold data_fragments. destruct (cmd_body (rq_command r)); assumption.
Qed.
Lemma write_data_step r f fs z : acceptable r -> is_special r -> f :: fs = data_fragments r -> at_rest [] ExpectLine z ->
  exists rs es z' st' more, settles (enqueue z (fragment_data f)) (state_of r) rs es z' st' /\
    view (data_written r fs) rs more z' st' /\ es ++ more = follow_up r.
Proof.
  intros A S E Ar. destruct (data_line r) as (x & Ex & Hn). rewrite <- E in Ex. injection Ex as -> ->.
  assert (T : too_long M x = false).
  { destruct A as (_ & _ & _ & A). unfold is_special in S.
    assert (Q : fits max (dump_fragments (data_fragments r))) by (destruct (cmd_body (rq_command r)); try contradiction; apply A).
    unfold fits in Q. rewrite <- E in Q. cbn [dump_fragments flat_map fragment_data] in Q. now rewrite app_nil_r in Q. }
  cbn [fragment_data data_written]. unfold state_of, is_special, follow_up, data_fragments in *.
  destruct (cmd_body (rq_command r)); try contradiction.
  - pose proof (C12_authenticate_data (rq_data r) []) as D. rewrite <- E, app_nil_r in D. cbn in D. rewrite app_nil_r in D.
    destruct (settle_last z (AwaitData (cmd_tag (rq_command r))) [] x AwaitCommand
      [Okay (cmd_tag (rq_command r))] [EvData (DMOk (rq_data r))] Ar Hn) as (z' & Hz & Az).
    { cbn [answers app]. exists (rq_data r). auto. }
    exists [Okay (cmd_tag (rq_command r))], [EvData (DMOk (rq_data r))], z', AwaitCommand, [].
    split; [exact Hz |]. split; [cbn [view]; auto | reflexivity].
  - pose proof (C12_idle_done []) as D. rewrite <- E, app_nil_r in D. cbn in D. rewrite app_nil_r in D.
    destruct (settle_last z AwaitDone [] x AwaitCommand [] [EvDone (DMOk tt)] Ar Hn) as (z' & Hz & Az).
    { cbn [answers app]. auto. }
    exists [], [EvDone (DMOk tt)], z', AwaitCommand, []. split; [exact Hz |]. split; [cbn [view]; auto | reflexivity].
Qed.

Lemma inv_happens all a b : inv all a -> happens lim a b -> inv all b.
Proof.
  intros (rs & es & z & st & more & Hset & Hv & Hacc & Hlog & Hbl) H. destruct H; unfold inv; cbn [n_todo n_phase n_up n_down n_server n_log] in *.
  - cbn [view] in Hv. destruct Hv as (Er & -> & -> & Ar). inversion_clear Hacc as [| ? ? A1 A2].
    exists rs, es, z, AwaitCommand, (outcome_of r). split; [exact Hset |]. split; [| split; [exact A2 | split; [exact Hlog | exact Hbl]]].
    cbn [view]. do 4 (split; [now auto |]). exists []. pose proof (nice_command r A1) as K.
    assert (Q : exists l fs, encode_command (rq_command r) = FrLine l :: fs).
    { destruct (encode_command (rq_command r)) as [| [l | ] fs]; try contradiction. eauto. }
    destruct Q as (l & fs & Q). rewrite Q in *. cbn [app nice_from expect]. repeat split; auto; try apply Ar; try apply K. discriminate.
  - cbn [view] in Hv. destruct Hv as (A & Er & -> & -> & Mi).
    destruct (write_step r f fs z A Mi) as (rs2 & es2 & z2 & st2 & more2 & S2 & V2 & E2).
    exists (rs ++ rs2), (es ++ es2), z2, st2, more2. split.
    { rewrite <- enqueue_app. eapply settles_enqueue; eassumption. }
    split; [| split; [exact Hacc | split; [| exact Hbl]]].
    + rewrite app_assoc, Er. exact V2.
    + rewrite <- Hlog, <- E2, <- !app_assoc. reflexivity.
  - cbn [view] in Hv. destruct Hv as (A & Sp & Ef & Er & -> & -> & Ar).
    destruct (write_data_step r f fs z A Sp Ef Ar) as (rs2 & es2 & z2 & st2 & more2 & S2 & V2 & E2).
    exists (rs ++ rs2), (es ++ es2), z2, st2, more2. split.
    { rewrite <- enqueue_app. eapply settles_enqueue; eassumption. }
    split; [| split; [exact Hacc | split; [| exact Hbl]]].
    + rewrite app_assoc, Er. exact V2.
    + rewrite <- Hlog, <- E2, <- !app_assoc. reflexivity.
  - exists rs, es, z, st, more. cbn [sv_frag sv_state sv_blocked] in *. rewrite enqueue_app. repeat split; auto. discriminate.
  - unfold serve in H. cbn [sv_frag sv_state sv_blocked] in *. destruct (progress s) as [s1 [f |]] eqn:Ep.
    + destruct (react lim st0 s1 f) as [[[s2 st2] rs2] es2] eqn:Er. injection H as <- <- <-. cbn [sv_frag sv_state sv_blocked].
      pose proof (progress_some_enqueue _ up _ _ Ep) as Kp. pose proof (react_enqueue _ _ _ up _ _ _ _ Er) as Kr.
      inversion Hset as [? Q | ? ? ? ? ? ? rs' es' ? ? Q Qr Qs]; subst; rewrite Kp in Q; [discriminate |].
      injection Q as <- <-. rewrite Kr in Qr. injection Qr as <- <- <- <-.
      exists rs', es', z, st, more. repeat split; auto; try discriminate.
      * now rewrite <- app_assoc.
      * now rewrite <- !app_assoc.
    + injection H as <- <- <-. cbn [sv_frag sv_state sv_blocked]. rewrite !app_nil_r.
      pose proof (progress_none_enqueue _ up _ Ep) as Kp.
      exists rs, es, z, st, more. split; [| repeat split; auto].
      * inversion Hset; subst; [apply settles_none | eapply settles_some; [| eassumption | eassumption]]; now rewrite <- Kp.
      * intros _. pose proof (progress_none_enqueue _ [] _ Ep) as K. rewrite !enqueue_nil in K. now rewrite <- K.
  - assert (Eq : forall x, beqs x x = true) by (intros x; now apply beqs_eq).
    exists rs, es, z, st.
    destruct p; cbn [view hears app] in Hv |- *.
    + now destruct Hv as (? & _).
    + now destruct Hv as (_ & ? & _).
    + destruct Hv as (A & [(E & -> & -> & Mi) | (E & -> & -> & Ar)]); injection E as -> E.
      * exists (outcome_of r). cbn [view]. auto 10.
      * rewrite Eq. exists []. cbn [view]. auto 10.
    + destruct Hv as (A & Sp & E & -> & -> & Ar). injection E as -> E. exists (follow_up r). cbn [view]. auto 12.
    + now destruct Hv as (_ & _ & _ & ? & _).
    + destruct Hv as (E & -> & -> & Ar). injection E as -> E. rewrite Eq. exists []. cbn [view]. auto 10.
    + contradiction.
Qed.
Lemma inv_new rs : Forall acceptable rs -> inv (flat_map outcome_of rs) (net_new max rs).
Proof.
  intros A. unfold inv, net_new, server_new. cbn [n_todo n_phase n_up n_down n_server n_log sv_frag sv_state sv_blocked].
  rewrite enqueue_nil.
  destruct (settle_rest (frag_new M) AwaitCommand [] ExpectLine) as (z & Hz & Az); [| reflexivity | exact I |].
  { left. unfold at_start, frag_new. cbn [max_size fparser_of buffer exceeded poisoned]. rewrite limited_nil, too_long_nil. auto. }
  exists [], [], z, AwaitCommand, []. repeat split; auto; try apply Az; try discriminate.
Qed.
Lemma inv_reaches rs n : Forall acceptable rs -> reaches lim (net_new max rs) n -> inv (flat_map outcome_of rs) n.
Proof.
  intros A H. induction H as [| a b H IH S]; [now apply inv_new |]. exact (inv_happens _ _ _ IH S).
Qed.
Lemma inv_progress all n : inv all n -> (exists n', happens lim n n') \/ (done n /\ n_log n = all).
Proof.
  intros (rs & es & z & st & more & Hset & Hv & Hacc & Hlog & Hbl).
  destruct n as [todo p up down [s sst blocked] log]. cbn [n_todo n_phase n_up n_down n_server n_log sv_frag sv_state sv_blocked] in *.
  destruct down as [| a down]; [| left; eexists; apply happens_hear].
  destruct blocked.
  2: { left. destruct (serve lim (mkServer s sst false)) as [[sv' rs'] es'] eqn:E. eexists. eapply happens_serve. exact E. }
  destruct up as [| b up].
  2: { left. eexists. apply (happens_deliver _ _ _ [b] up). discriminate. }
  rewrite enqueue_nil in Hset. specialize (Hbl eq_refl).
  assert (Q : rs = [] /\ es = []).
  { inversion Hset as [? Q | ? ? ? ? ? ? rs' es' ? ? Q Qr Qs]; subst; [auto | rewrite Hbl in Q; discriminate]. }
  destruct Q as [-> ->]. cbn [app] in *.
  destruct p; cbn [view] in Hv.
  - destruct todo as [| r todo]; [| left; eexists; apply happens_next]. right. destruct Hv as (_ & -> & _).
    cbn in Hlog. rewrite app_nil_r in Hlog. now repeat split.
  - destruct Hv as (_ & _ & _ & _ & (pre & _ & Hn & _)). destruct fs as [| f fs]; [contradiction |]. left. eexists. apply happens_write.
  - destruct Hv as (_ & [(E & _) | (E & _)]); discriminate.
  - destruct Hv as (_ & _ & E & _); discriminate.
  - destruct Hv as (_ & _ & E & _). destruct (data_line r) as (x & Ex & _). rewrite Ex in E. subst fs. left. eexists. apply happens_write_data.
  - destruct Hv as (E & _); discriminate.
  - contradiction.
Qed.

(** ** Every session ends *)
Definition cost (fs : list fragment) : nat := list_sum (map (fun f => 10 * length (fragment_data f) + 1) fs).
Definition phase_cost (p : phase) : nat :=
  match p with
  | Writing r fs | WaitLiteral r fs => cost fs + cost (data_fragments r)
  | WaitPlus r => cost (data_fragments r)
  | WritingData r fs => cost fs
  | _ => 0
  end.
Definition net_cost (n : net) : nat :=
  list_sum (map (fun r => cost (encode_command (rq_command r)) + cost (data_fragments r) + 1) (n_todo n))
  + phase_cost (n_phase n) + 10 * length (n_up n) + 2 * length (n_down n)
  + 4 * pending (sv_frag (n_server n)) + (if sv_blocked (n_server n) then 0 else 1).
Lemma parse_kind p i p' n : parse_fragment p i = (p', n, None) ->
  match p, p' with PLine _, PLine _ | PLiteral _, PLiteral _ => True | _, _ => False end.
Proof.
  destruct p as [lp | tp]; cbn [parse_fragment].
  - destruct (line_parse lp i) as [[lp' k] f]. now intros [= <- <- ->].
  - destruct (literal_parse tp i) as [[tp' k] f]. now intros [= <- <- ->].
Qed.
Lemma progress_none_pending s s' : progress s = (s', None) -> pending s' <= pending s.
Proof.
  intros E. pose proof (progress_none_unparsed _ _ E) as U. unfold pending. rewrite U. cbn [length Nat.mul Nat.add].
  unfold progress, start_message in E. destruct (fparser_of s) as [p |].
  - destruct (parse_fragment p (unparsed s)) as [[p' n] [f |]] eqn:Ep; [discriminate |]. injection E as <-.
    apply parse_kind in Ep. unfold dequeue. destruct (max_size (set_parser s (Some p'))); [dif |];
      cbn [fparser_of set_parser]; destruct p, p'; try contradiction; lia.
  - match type of E with context [parse_fragment ?p ?i] => destruct (parse_fragment p i) as [[p' n] [f |]] eqn:Ep end; [discriminate |].
    injection E as <-. apply parse_kind in Ep. destruct p'; [| contradiction].
    unfold dequeue. cbn [max_size set_parser]. destruct (max_size s); [dif |]; cbn [fparser_of set_parser]; lia.
Qed.
Lemma react_pending st s f s2 st2 rs es : react lim st s f = (s2, st2, rs, es) -> pending s2 <= pending s /\ length rs <= 1.
Proof.
  unfold react.
  assert (K : pending (skip_message s) <= pending s /\ pending (poison_message s) = pending s).
  { unfold pending, skip_message, poison_message. cbn. lia. }
  destruct f as [? ? [[[|] n] |] ? | ? ?];
    try (destruct (N.leb n lim); [| destruct (decode_tag s)]);
    try (destruct (is_message_complete s); [destruct st |]);
    try (destruct (decode_message _ s) as [c | | | | |]; [try destruct (cmd_body c) | ..]);
    intros [= <- <- <- <-]; cbn [length]; lia.
Qed.
Lemma cost_cons f fs : cost (f :: fs) = 10 * length (fragment_data f) + 1 + cost fs.
Proof. reflexivity. Qed.
Lemma happens_cost a b : happens lim a b -> net_cost b < net_cost a.
Proof.
  intros H. destruct H; unfold net_cost; cbn [n_todo n_phase n_up n_down n_server n_log].
  - cbn [map list_sum fold_right phase_cost]. unfold list_sum. cbn [fold_right]. lia.
  - cbn [phase_cost]. rewrite cost_cons, app_length.
    assert (K : phase_cost (written r fs) <= cost fs + cost (data_fragments r)).
    { destruct fs as [| [l | d [|]] fs]; cbn [written phase_cost]; try lia. unfold finished.
      destruct (cmd_body (rq_command r)); cbn [phase_cost]; lia. }
    lia.
  - cbn [phase_cost]. rewrite cost_cons, app_length.
    assert (K : phase_cost (data_written r fs) <= cost fs).
    { destruct fs as [| f' fs]; cbn [data_written phase_cost]; [| lia]. destruct (cmd_body (rq_command r)); cbn [phase_cost]; lia. }
    lia.
  - cbn [sv_frag sv_blocked]. rewrite app_length.
    assert (K : pending (enqueue s x) = pending s + 2 * length x).
    { unfold pending, enqueue. cbn [unparsed fparser_of]. rewrite app_length. lia. }
    destruct x as [| c x]; [contradiction |]. rewrite K. cbn [length]. lia.
  - unfold serve in H. cbn [sv_frag sv_state sv_blocked] in *. destruct (progress s) as [s1 [f |]] eqn:Ep.
    + destruct (react lim st s1 f) as [[[s2 st2] rs2] es2] eqn:Er. injection H as <- <- <-. cbn [sv_frag sv_blocked].
      apply progress_pending in Ep. apply react_pending in Er as [K1 K2]. rewrite app_length. lia.
    + injection H as <- <- <-. cbn [sv_frag sv_blocked]. apply progress_none_pending in Ep. rewrite app_nil_r. lia.
  - cbn [length].
    assert (K : phase_cost (hears p a) <= phase_cost p).
    { destruct p, a; cbn [hears phase_cost]; try lia; try (destruct (beqs _ _); cbn [phase_cost]; lia). }
    lia.
Qed.
Lemma happens_wf : well_founded (fun b a => happens lim a b).
Proof.
  apply (well_founded_lt_compat _ net_cost). intros b a. apply happens_cost.
Qed.

(** ** A schedule, for examples *)
Definition next (n : net) : option net :=
  match n with
  | mkNet (r :: rs) Ready up down sv log =>
    Some (mkNet rs (Writing r (encode_command (rq_command r))) up down sv log)
  | mkNet todo (Writing r (f :: fs)) up down sv log =>
    Some (mkNet todo (written r fs) (up ++ fragment_data f) down sv log)
  | mkNet todo (WritingData r (f :: fs)) up down sv log =>
    Some (mkNet todo (data_written r fs) (up ++ fragment_data f) down sv log)
  | mkNet todo p up (a :: down) sv log => Some (mkNet todo (hears p a) up down sv log)
  | mkNet todo p up down (mkServer s st false) log =>
    let '(sv', rs, es) := serve lim (mkServer s st false) in Some (mkNet todo p up (down ++ rs) sv' (log ++ es))
  | mkNet todo p (b :: up) down (mkServer s st true) log =>
    Some (mkNet todo p [] down (mkServer (enqueue s (b :: up)) st false) log)
  | _ => None
  end.
Lemma next_happens n n' : next n = Some n' -> happens lim n n'.
Proof.
  destruct n as [todo p up down [s st bl] log]. unfold next.
  destruct todo as [| r0 todo], p as [| r [| f fs] | | | r [| f fs] | |], down as [| a down], bl, up as [| b up];
    try discriminate; try (intros [= <-]; constructor; fail);
    try (destruct (serve lim (mkServer s st false)) as [[sv' rs] es] eqn:E; intros [= <-];
         exact (happens_serve lim _ _ _ [] _ _ _ _ _ _ E));
    intros [= <-];
    match goal with |- happens _ (mkNet ?t ?p (?b :: ?u) _ _ _) _ =>
      pose proof (happens_deliver lim t p (b :: u) [] [] s st log) as K end;
    rewrite app_nil_r in K; apply K; discriminate.
Qed.
Lemma next_none n n' : next n = None -> ~ happens lim n n'.
Proof.
  intros E H. destruct H; unfold next in E.
  - discriminate.
  - destruct todo; discriminate.
  - destruct todo; discriminate.
  - destruct x as [| b x]; [contradiction |]. cbn [app] in E.
    destruct todo, p as [| ? [|] | | | ? [|] | |], down; discriminate.
  - destruct (serve lim (mkServer s st false)) as [[? ?] ?].
    destruct todo, p as [| ? [|] | | | ? [|] | |], down, up; discriminate.
  - destruct sv as [? ? [|]], todo, p as [| ? [|] | | | ? [|] | |], up; discriminate.
Qed.
Fixpoint play (k : nat) (n : net) : net :=
  match k with
  | 0 => n
  | S k => match next n with Some n' => play k n' | None => n end
  end.
Lemma play_reaches k : forall a n, reaches lim a n -> reaches lim a (play k n).
Proof.
  induction k as [| k IH]; intros a n H; cbn [play]; [exact H |]. destruct (next n) as [n' |] eqn:E; [| exact H].
  apply IH. eapply reaches_step; [exact H | now apply next_happens].
Qed.
End Session.

(** Proofs about encoder and fragmentizer together, for StreamProps.v. *)

From Verif Require Import Bytes BytesFacts Dec Features Nom Types Utf8 Conv Base64 ParseResp EncodeCtx Encode EncodeFacts
  EncodeApi Decode Valid ValidFacts OtherCode EncFragFacts LineFacts Fragmentizer FragSpec FragFacts StreamSpec.
Open Scope nat_scope.

(** *** Lines that do not announce a literal *)
Definition closed_braces (s : bytes) : Prop :=
  forall u v, s = u ++ "{"%byte :: v -> existsb (fun b => negb (ann_char b)) v = true.

(** [announces] for a line that ends in CRLF *)
Definition ann_tail (digits : bytes) (a : announcement) : bytes := digits ++ plus_of (ann_mode a) ++ ["}"%byte].
Definition ann_num (digits : bytes) (a : announcement) : Prop :=
  digits <> [] /\ forallb is_digit digits = true /\ ann_length a = dval digits /\ (dval digits <= 4294967295)%N.
Lemma announces_crlf s a : announces (s ++ [bCR; bLF]) a <->
  exists u digits, s = u ++ "{"%byte :: ann_tail digits a /\ ann_num digits a.
Proof.
  split.
  - intros (pre & ds & eol & E & He & K).
    assert (L : eol = [bCR; bLF]).
    { destruct He as [-> | ->]; [| reflexivity]. exfalso.
      change [bCR; bLF] with ([bCR] ++ [bLF]) in E. rewrite !app_assoc in E. apply app_inj_tail in E as [E _].
      change (bs "}") with ["}"%byte] in E. apply app_inj_tail in E as [_ E]. discriminate. }
    subst eol. rewrite !app_assoc in E. apply app_inv_tail in E. exists pre, ds. split; [| exact K].
    rewrite E. unfold ann_tail. cbn [bs]. rewrite <- !app_assoc. reflexivity.
  - intros (u & ds & -> & K). exists u, ds, [bCR; bLF]. split; [| split; [now right | exact K]].
    unfold ann_tail. rewrite <- !app_assoc. cbn [app]. rewrite <- !app_assoc. reflexivity.
Qed.
Lemma ann_chars a digits : forallb is_digit digits = true ->
  existsb (fun b => negb (ann_char b)) (ann_tail digits a) = false.
Proof.
  intros H. unfold ann_tail. rewrite existsb_app.
  replace (existsb _ (plus_of _ ++ _)) with false by now destruct (ann_mode a).
  rewrite orb_false_r. induction digits as [| d ds IH]; [reflexivity |]. cbn in *.
  apply andb_true_iff in H as [Hd H]. rewrite (IH H). unfold ann_char. now rewrite Hd.
Qed.
Lemma closed_quiet s t : closed_braces s -> quiet t -> quiet (s ++ t).
Proof.
  intros C Q a H. apply announces_crlf in H as (u & ds & E & K).
  assert (N : forall v w, ann_tail ds a = v ++ w -> existsb (fun b => negb (ann_char b)) v = false).
  { intros v w Ev. pose proof (ann_chars a ds (proj1 (proj2 K))) as X. rewrite Ev, existsb_app in X.
    now apply orb_false_iff in X as [X _]. }
  apply app_eq_app in E as (l & [[Es Et] | [Eu Et]]).
  - destruct l as [| x l].
    + apply (Q a), announces_crlf. exists [], ds. split; [symmetry; exact Et | exact K].
    + injection Et as <- Et. specialize (C _ _ Es). now rewrite (N _ _ Et) in C.
  - apply (Q a), announces_crlf. exists l, ds. auto.
Qed.
Lemma quiet_nil : quiet [].
Proof. intros a H. apply (proj1 (announces_crlf [] a)) in H as (u & ds & E & _). now destruct u. Qed.
Lemma closed_quiet1 s : closed_braces s -> quiet s.
Proof. intros C. rewrite <- (app_nil_r s). apply closed_quiet; [exact C | apply quiet_nil]. Qed.

(** The bytes after the last literal *)
Fixpoint final (acc : bytes) (l : list op) : bytes :=
  match l with
  | [] => acc
  | B b :: l' => final (acc ++ [b]) l'
  | Lit _ _ _ :: l' => final [] l'
  end.
Lemma final_W t : forall acc l, final acc (l ++ W t) = final acc l ++ t.
Proof.
  assert (K : forall acc, final acc (W t) = acc ++ t).
  { induction t as [| b t IH]; intros acc; cbn; [now rewrite app_nil_r |].
    fold (W t). now rewrite IH, <- app_assoc. }
  intros acc l. revert acc. induction l as [| [b | ? ? ?] l IH]; intros acc; cbn; auto.
Qed.
Lemma final_closed l : forall acc, braces l = true ->
  (forall u v, acc = u ++ "{"%byte :: v -> existsb (fun b => negb (ann_char b)) v = true \/ existsb stops l = true) ->
  closed_braces (final acc l).
Proof.
  induction l as [| o l IH]; intros acc Hb Hi; cbn [final].
  - intros u v E. destruct (Hi u v E) as [K | K]; [exact K | discriminate].
  - cbn in Hb. apply andb_true_iff in Hb as [H1 Hb]. destruct o as [b | is8 m d].
    + apply (IH _ Hb). intros u v E.
      destruct (list_eq_dec Byte.byte_eq_dec v []) as [-> | Hv].
      * apply app_inj_tail in E as [<- ->]. right. exact H1.
      * destruct (exists_last Hv) as (w & x & ->). change (u ++ "{"%byte :: w ++ [x]) with (u ++ ("{"%byte :: w) ++ [x]) in E.
        rewrite app_assoc in E. apply app_inj_tail in E as [E ->].
        destruct (Hi _ _ E) as [K | K].
        -- left. now rewrite existsb_app, K.
        -- cbn in K. apply orb_true_iff in K as [K | K]; [| now right].
           left. rewrite existsb_app. cbn. now rewrite K, !orb_true_r.
    + apply (IH _ Hb). intros [| ? u] v E; discriminate.
Qed.
Lemma braces_quiet l t : braces l = true -> quiet t -> quiet (final [] (l ++ W t)).
Proof.
  intros H Q. rewrite final_W. apply closed_quiet; [| exact Q]. apply final_closed; [exact H |].
  intros [| ? u] v E; discriminate.
Qed.

(** *** The fragments of an encoding are those of its bytes *)
Lemma header_ann acc is8 m n : (n <= u32_max)%N -> announces (acc ++ lit_header is8 m n) (mkAnn m n).
Proof.
  intros H. exists (acc ++ if is8 then bs "~" else []), (dec n), [bCR; bLF].
  split; [| split; [now right | split; [apply dec_nonempty | split; [apply dec_digits |]]]].
  - unfold lit_header. destruct is8; cbn [app]; rewrite <- ?app_assoc; cbn [app bs];
      rewrite ?app_nil_r; destruct m; reflexivity.
  - cbn. rewrite dval_dec. split; [reflexivity | exact H].
Qed.
Lemma header_crlf acc is8 m n : exists t, acc ++ lit_header is8 m n = (acc ++ t) ++ [bCR; bLF] /\
  forallb (fun b => negb (beq b bLF)) t = true.
Proof.
  exists ((if is8 then ["~"%byte] else []) ++ "{"%byte :: dec n ++ match m with Sync => [] | NonSync => ["+"%byte] end ++ ["}"%byte]).
  split.
  - unfold lit_header. rewrite <- !app_assoc. cbn [app]. rewrite <- !app_assoc. reflexivity.
  - assert (K : forallb (fun b => negb (beq b bLF)) (dec n) = true).
    { rewrite forallb_forall. intros b Hb. pose proof (plain_dec n) as P. rewrite forallb_forall in P.
      specialize (P _ Hb). unfold plain in P. now apply andb_true_iff in P as [P _]. }
    rewrite forallb_app. cbn [forallb]. rewrite !forallb_app, K. now destruct is8, m.
Qed.
Definition short (o : op) : bool := match o with B _ => true | Lit _ _ d => N.leb (lenN d) u32_max end.
Lemma frags_last acc : frags acc e_crlf = [FrLine (acc ++ [bCR; bLF])].
Proof. cbn. rewrite <- app_assoc. cbn. now destruct acc. Qed.
Lemma splits_ops l : forall acc rest fs e r,
  clean_lines (frags acc (l ++ e_crlf)) -> forallb short l = true -> quiet (final acc l) ->
  splits ExpectLine rest fs e r ->
  splits ExpectLine (acc ++ dump (l ++ e_crlf) ++ rest) (as_seen (frags acc (l ++ e_crlf)) ++ fs) e r.
Proof.
  induction l as [| [b | is8 m d] l IH]; intros acc rest fs e r C Hs Q S.
  - rewrite app_nil_l in *. rewrite frags_last in *. cbn [as_seen app final] in *.
    change (dump e_crlf) with [bCR; bLF]. rewrite app_assoc. inversion_clear C.
    apply splits_line; [assumption | exact Q | now exists acc | exact S].
  - cbn [app frags final forallb short] in *.
    specialize (IH (acc ++ [b]) rest fs e r C Hs Q S). rewrite <- app_assoc in IH. exact IH.
  - cbn [app frags final forallb short] in *. apply andb_true_iff in Hs as [Hd Hs].
    inversion_clear C. inversion_clear H0. cbn [as_seen app].
    cbn [dump flat_map dump_op]. fold (dump (l ++ e_crlf)). rewrite <- !app_assoc, app_assoc.
    apply splits_line; [assumption | apply header_ann, N.leb_le, Hd | destruct (header_crlf acc is8 m (lenN d)) as (t & -> & _); now exists (acc ++ t) |].
    cbn [after_line ann_length]. apply splits_literal; [reflexivity |].
    apply (IH [] rest fs e r H2 Hs Q S).
Qed.
Lemma no_lf_line s : forallb (fun b => negb (beq b bLF)) s = true -> is_line (s ++ [bCR; bLF]).
Proof.
  intros H. exists (s ++ [bCR]). split; [now rewrite <- app_assoc |]. intros K. apply in_app_iff in K as [K | [K | []]]; [| discriminate].
  rewrite forallb_forall in H. specialize (H _ K). discriminate.
Qed.
Lemma no_lf_clean l : forall acc, forallb (fun b => negb (beq b bLF)) acc = true -> forallb no_lf l = true ->
  clean_lines (frags acc (l ++ e_crlf)).
Proof.
  induction l as [| [b | is8 m d] l IH]; intros acc Ha Hl.
  - rewrite app_nil_l, frags_last. constructor; [now apply no_lf_line | constructor].
  - cbn in *. apply andb_true_iff in Hl as [H1 H2]. apply IH; [| exact H2]. rewrite forallb_app, Ha. cbn. now rewrite H1.
  - cbn [app frags forallb] in *. constructor; [| constructor; [exact I | now apply IH]].
    destruct (header_crlf acc is8 m (lenN d)) as (t & -> & K). apply no_lf_line. now rewrite forallb_app, Ha.
Qed.

(** *** Encoder and fragmentizer agree *)
Lemma splits_total s : exists fs e r, splits ExpectLine s fs e r.
Proof.
  destruct (run_drain_total (frag_new None) [Enqueue s]) as (obs & s' & R).
  apply run_drain_spec in R as (fs & e & r & S & _); [| now constructor].
  cbn in S. rewrite app_nil_r in S. eauto.
Qed.
Lemma expected_cat max fs : forall msg gs,
  expected max msg (fs ++ gs) = expected max msg fs ++ expected max (current msg fs) gs.
Proof. induction fs as [| f fs IH]; intros msg gs; cbn; [reflexivity | now rewrite IH]. Qed.
Lemma current_seen l : forall acc msg, current msg (as_seen (frags acc (l ++ e_crlf))) = [].
Proof.
  induction l as [| [b | is8 m d] l IH]; intros acc msg.
  - rewrite app_nil_l, frags_last. reflexivity.
  - apply IH.
  - cbn [app frags as_seen current ends_message]. apply IH.
Qed.
Definition sound (l : list op) : Prop :=
  clean_lines (fragments (l ++ e_crlf)) /\ forallb short l = true /\ quiet (final [] l).
Lemma agree max l rest ops obs s : sound l ->
  feeds ops -> fed ops = dump_fragments (fragments (l ++ e_crlf)) ++ rest ->
  run_drain (frag_new max) ops obs s ->
  exists obs2 s2, run_drain (frag_new max) [Enqueue rest] obs2 s2 /\
    obs = expected max [] (as_seen (fragments (l ++ e_crlf))) ++ obs2.
Proof.
  intros (C & H & Q) Hf E R. apply run_drain_spec in R as (fs & e & r & S & -> & _); [| exact Hf].
  destruct (run_drain_total (frag_new max) [Enqueue rest]) as (obs2 & s2 & R2).
  exists obs2, s2. split; [exact R2 |].
  apply run_drain_spec in R2 as (fs2 & e2 & r2 & S2 & -> & _); [| now constructor].
  cbn in S2. rewrite app_nil_r in S2. rewrite fragments_frags in *.
  apply (splits_ops l []) in S2; [| assumption ..].
  rewrite E, dump_frags in S. cbn [app] in S, S2. destruct (splits_fun _ _ _ _ _ S _ _ _ S2) as (-> & _ & _).
  now rewrite expected_cat, current_seen.
Qed.

(** *** Receiving *)
Section Receiving.
Context {E A : Type} (dec : bytes -> outcome E A).
Definition decide (m : bytes) : decode_message_result E A :=
  match dec m with
  | Decoded [] x => DMOk x
  | Decoded r x => DMRemainder x r
  | Error e => DMFailure e
  | Panic => DMPanic
  end.
Definition of_obs (o : observation) : list (decode_message_result E A) :=
  if ob_complete o then
    [if ob_exceeded o then DMTooLong (ob_message o)
     else if ob_poisoned o then DMPoisoned (ob_message o) else decide (ob_message o)]
  else [].
Lemma of_observe s f : of_obs (observe s f) = if is_message_complete s then [decode_message dec s] else [].
Proof. reflexivity. Qed.
Lemma receive_run ops : forall s, fst (receive dec s ops) = fst (run s ops) /\
  snd (receive dec s ops) = flat_map of_obs (snd (run s ops)).
Proof.
  induction ops as [| o ops IH]; intros s; [now split |]. cbn [receive run].
  assert (K : fst (receive_step dec s o) = fst (step s o) /\
              snd (receive_step dec s o) = flat_map of_obs (snd (step s o))).
  { destruct o; cbn; auto. destruct (progress s) as [s' [f |]]; cbn; auto.
    split; [reflexivity |]. rewrite app_nil_r. reflexivity. }
  destruct (receive_step dec s o) as [s1 r1], (step s o) as [s1' o1]. cbn in K. destruct K as [<- ->].
  destruct (IH s1) as [K1 K2]. destruct (receive dec s1 ops) as [s2 r2], (run s1 ops) as [s2' o2]. cbn in *.
  rewrite flat_map_app, K2. now split.
Qed.
Lemma receive_rest_drains s obs s' : drains s obs s' -> forall r, receive_rest dec s r -> r = flat_map of_obs obs.
Proof.
  induction 1 as [s s' D | s s1 f obs s' D1 D2 IH]; intros r R; inversion R; subst; try congruence.
  - reflexivity.
  - match goal with H : progress s = (_, Some _) |- _ => rewrite D1 in H; injection H as <- <- end.
    cbn [flat_map]. now rewrite of_observe, (IH _ H0).
Qed.
Lemma receives_obs s ops r obs s' : receives dec s ops r -> run_drain s ops obs s' -> r = flat_map of_obs obs.
Proof.
  intros (r2 & R & ->) (s1 & o1 & o2 & E1 & D & ->). destruct (receive_run ops s) as [K1 K2].
  rewrite E1 in K1, K2. cbn in K1, K2. rewrite K1 in R. now rewrite (receive_rest_drains _ _ _ D _ R), K2, flat_map_app.
Qed.
Lemma drains_receive_rest s obs s' : drains s obs s' -> receive_rest dec s (flat_map of_obs obs).
Proof.
  induction 1 as [s s' D | s s1 f obs s' D1 D2 IH]; cbn [flat_map].
  - now apply (receive_none dec s s').
  - rewrite of_observe. now apply (receive_some dec s s1 f).
Qed.
Lemma obs_receives s ops obs s' : run_drain s ops obs s' -> receives dec s ops (flat_map of_obs obs).
Proof.
  intros (s1 & o1 & o2 & E1 & D & ->). destruct (receive_run ops s) as [K1 K2].
  rewrite E1 in K1, K2. cbn in K1, K2. exists (flat_map of_obs o2). rewrite K1, K2, flat_map_app.
  split; [now apply drains_receive_rest in D | reflexivity].
Qed.
Lemma of_expected max l : forall acc msg,
  flat_map of_obs (expected max msg (as_seen (frags acc (l ++ e_crlf)))) =
  let m := msg ++ acc ++ dump (l ++ e_crlf) in
  [if too_long max m then DMTooLong (limited max m) else decide (limited max m)].
Proof.
  induction l as [| [b | is8 m d] l IH]; intros acc msg.
  - rewrite app_nil_l, frags_last. reflexivity.
  - cbn [app frags]. rewrite IH. cbn zeta. rewrite <- !app_assoc. reflexivity.
  - cbn [app frags as_seen expected ends_message flat_map of_obs ob_complete frag_bytes]. rewrite IH.
    cbn zeta. cbn [dump flat_map dump_op app]. fold (dump (l ++ e_crlf)). rewrite <- !app_assoc. reflexivity.
Qed.
Lemma limited_fits max m : too_long max m = false -> limited max m = m.
Proof.
  destruct max as [n |]; [| reflexivity]. cbn. intros H. apply N.ltb_ge in H. apply firstn_all2. unfold lenN in H. lia.
Qed.
Lemma stream_step max l rest ops r x : sound l ->
  dec (dump_fragments (fragments (l ++ e_crlf))) = Decoded [] x ->
  feeds ops -> fed ops = dump_fragments (fragments (l ++ e_crlf)) ++ rest ->
  receives dec (frag_new max) ops r ->
  exists more, receives dec (frag_new max) [Enqueue rest] more /\
    r = received max (dump_fragments (fragments (l ++ e_crlf))) x :: more.
Proof.
  intros Sl D Hf E1 R. destruct (run_drain_total (frag_new max) ops) as (obs & s & R1).
  rewrite (receives_obs _ _ _ _ _ R R1). destruct (agree _ _ _ _ _ _ Sl Hf E1 R1) as (obs2 & s2 & R2 & ->).
  exists (flat_map of_obs obs2). split; [now apply (obs_receives _ _ _ s2) |].
  rewrite flat_map_app, fragments_frags, of_expected. cbn zeta. cbn [app]. f_equal.
  rewrite dump_frags. cbn [app]. unfold received. rewrite fragments_frags, dump_frags in D. cbn [app] in D.
  destruct (too_long max _) eqn:T; [reflexivity |]. rewrite (limited_fits _ _ T). unfold decide. now rewrite D.
Qed.
Lemma stream max (T : Type) (ops_of : T -> list op) (out : T -> A) rest : forall msgs ops r,
  (forall m, In m msgs -> exists l, ops_of m = l ++ e_crlf /\ sound l) ->
  (forall m, In m msgs -> dec (dump_fragments (fragments (ops_of m))) = Decoded [] (out m)) ->
  feeds ops -> fed ops = concat (map (fun m => dump_fragments (fragments (ops_of m))) msgs) ++ rest ->
  receives dec (frag_new max) ops r ->
  exists more, receives dec (frag_new max) [Enqueue rest] more /\
    r = map (fun m => received max (dump_fragments (fragments (ops_of m))) (out m)) msgs ++ more.
Proof.
  induction msgs as [| m msgs IH]; intros ops r Hs Hd Hf Ef R.
  - cbn in Ef. exists r. split; [| reflexivity].
    destruct (run_drain_total (frag_new max) ops) as (obs & s & R1).
    rewrite (receives_obs _ _ _ _ _ R R1). apply (obs_receives _ _ _ s).
    apply run_drain_one_shot in R1; [| exact Hf]. rewrite Ef in R1. exists (enqueue (frag_new max) rest), [], obs. auto.
  - cbn [map concat] in *. rewrite <- app_assoc in Ef. destruct (Hs m) as (l & El & Sl); [now left |].
    specialize (Hd m (or_introl eq_refl)) as Dm. rewrite El in Ef, Dm.
    destruct (stream_step _ _ _ _ _ _ Sl Dm Hf Ef R) as (more & Rm & ->).
    destruct (IH [Enqueue (concat (map (fun m => dump_fragments (fragments (ops_of m))) msgs) ++ rest)] more) as (more' & Rm' & ->).
    + intros x Hx. apply Hs. now right.
    + intros x Hx. apply Hd. now right.
    + now constructor.
    + cbn. now rewrite app_nil_r.
    + exact Rm.
    + exists more'. split; [exact Rm' |]. rewrite El. reflexivity.
Qed.
End Receiving.

(** *** The messages *)
Section Messages.
Context {F : features}.
Lemma short_of l : forallb (short_lit LDecoded) l = true -> forallb short l = true.
Proof.
  rewrite !forallb_forall. intros H o Ho. specialize (H o Ho). now destruct o.
Qed.
(** A message is a fine part followed by a quiet text. *)
Lemma sound_text l t : fine LDecoded l -> forallb no_lf (W t) = true -> quiet t ->
  ext_utf8 = false \/ clean_lines (fragments ((l ++ W t) ++ e_crlf)) -> sound (l ++ W t).
Proof.
  intros (H1 & H2 & H3) Ht Q U. split; [| split].
  - destruct U as [U | U]; [| exact U]. rewrite fragments_frags. apply no_lf_clean; [reflexivity |].
    now rewrite forallb_app, (H2 U).
  - apply short_of. now rewrite forallb_app, H3, short_W.
  - now apply braces_quiet.
Qed.
Lemma sound_fine l : fine LDecoded l -> ext_utf8 = false \/ clean_lines (fragments (l ++ e_crlf)) -> sound l.
Proof.
  intros H U. rewrite <- (app_nil_r l) in *. change (@nil op) with (W []) in *.
  apply sound_text; try assumption; try reflexivity; [now rewrite app_nil_r in H | apply quiet_nil].
Qed.
Lemma sound_command c : v_command LDecoded c = true ->
  ext_utf8 = false \/ clean_lines (encode_command c) -> exists l, e_command c = l ++ e_crlf /\ sound l.
Proof.
  intros V U. exists (e_bytes (cmd_tag c) ++ spc ++ e_command_body (cmd_body c)).
  assert (K : e_command c = (e_bytes (cmd_tag c) ++ spc ++ e_command_body (cmd_body c)) ++ e_crlf).
  { unfold e_command. now rewrite !app_assoc. }
  split; [exact K |]. unfold encode_command in U. rewrite K in U. apply sound_fine; [| exact U].
  unfold v_command in V. apply andb_true_iff in V as [V1 V2].
  apply fine_app; [now apply fine_W, plain_tag |]. apply fine_app; [apply fine_spc | now apply fine_command_body].
Qed.
Variable other : bytes -> bytes -> bool.
Hypothesis Hother : forall b t, other b t = true -> forallb is_code_other_char b = true.
Definition code_part (c : option code) : list op :=
  match c with Some c => W (bs "[") ++ e_code c ++ W (bs "] ") | None => [] end.
Lemma code_text_eq c t : e_code_text c t = code_part c ++ W t.
Proof. unfold e_code_text. now destruct c. Qed.
Lemma fine_code_part c t : vopt (fun c => v_code LDecoded other c t) c = true -> fine LDecoded (code_part c).
Proof.
  destruct c as [c |]; cbn [vopt code_part]; intros V; [| apply fine_nil].
  apply fine_app; [now apply fine_W |]. eapply fine_code; [exact Hother | discriminate | exact V].
Qed.
Lemma code_text_valid c t : v_code_text LDecoded other c t = true ->
  forallb no_lf (W t) = true /\ fine LDecoded (code_part c).
Proof.
  unfold v_code_text. intros V. apply andb_true_iff in V as [V1 V2]. split; [now apply lf_text |].
  apply (fine_code_part c t). now destruct c.
Qed.
(** [pre ++ code ++ text] *)
Lemma sound_code_text (e pre : list op) c t : e = pre ++ e_code_text c t ++ e_crlf ->
  fine LDecoded pre -> forallb no_lf (W t) = true /\ fine LDecoded (code_part c) -> quiet t ->
  ext_utf8 = false \/ clean_lines (fragments e) -> exists l, e = l ++ e_crlf /\ sound l.
Proof.
  intros -> Hp (Ht & Hc) Q U. rewrite code_text_eq in *. exists ((pre ++ code_part c) ++ W t).
  split; [now rewrite <- !app_assoc |]. apply sound_text; try assumption; [now apply fine_app |].
  now rewrite <- !app_assoc in *.
Qed.
Lemma sound_greeting g : v_greeting LDecoded other g = true -> quiet_greeting g ->
  ext_utf8 = false \/ clean_lines (encode_greeting g) -> exists l, e_greeting g = l ++ e_crlf /\ sound l.
Proof.
  intros V Q U. unfold encode_greeting in U. unfold v_greeting in V. apply code_text_valid in V.
  eapply (sound_code_text _ (W (bs "* ") ++ e_greeting_kind (gr_kind g) ++ spc)); try eassumption.
  - unfold e_greeting. now rewrite <- !app_assoc.
  - apply fine_app; [now apply fine_W |]. apply fine_app; [| apply fine_spc]. now destruct (gr_kind g); apply fine_W.
Qed.
Lemma sound_response r : v_response LDecoded other r = true -> quiet_response r ->
  ext_utf8 = false \/ clean_lines (encode_response r) -> exists l, e_response r = l ++ e_crlf /\ sound l.
Proof.
  intros V Q U. unfold encode_response in U. destruct r as [c | d | s]; cbn [v_response e_response quiet_response] in *.
  - destruct c as [c t | d].
    + eapply (sound_code_text _ (W (bs "+ "))); try eassumption; [reflexivity | now apply fine_W |].
      cbn [v_continuation] in V. destruct c as [c |].
      * apply andb_true_iff in V as [V1 V2]. split; [now apply lf_text | now apply (fine_code_part (Some c) t)].
      * apply andb_true_iff in V as [V1 _]. apply andb_true_iff in V1 as [V1 _]. split; [now apply lf_text | apply fine_nil].
    + exists (W (bs "+ ") ++ W (b64_encode d)). cbn [e_continuation] in *. rewrite app_assoc in *. split; [reflexivity |].
      apply sound_fine; [| exact U]. apply fine_app; [now apply fine_W | apply fine_b64].
  - exists (data_body d). rewrite data_body_eq in *. split; [reflexivity |]. apply sound_fine; [| exact U]. now apply fine_data.
  - assert (Hk : forall k, fine LDecoded (e_status_kind k)) by (now destruct k; apply fine_W).
    destruct s as [b | t b | c t]; cbn [v_status e_status] in *.
    + unfold v_status_body in V. apply code_text_valid in V.
      eapply (sound_code_text _ (W (bs "*") ++ spc ++ e_status_kind (sb_kind b) ++ spc)); try eassumption.
      * unfold e_status. now rewrite <- !app_assoc.
      * repeat apply fine_app; auto using fine_spc. now apply fine_W.
    + apply andb_true_iff in V as [Vt V]. unfold v_status_body in V. apply code_text_valid in V.
      eapply (sound_code_text _ (e_bytes t ++ spc ++ e_status_kind (sb_kind b) ++ spc)); try eassumption.
      * unfold e_status. now rewrite <- !app_assoc.
      * repeat apply fine_app; auto using fine_spc. now apply fine_W, plain_tag.
    + apply code_text_valid in V.
      eapply (sound_code_text _ (W (bs "*") ++ spc ++ W (bs "BYE") ++ spc)); try eassumption.
      * unfold e_status. now rewrite <- !app_assoc.
      * repeat apply fine_app; auto using fine_spc; now apply fine_W.
Qed.
End Messages.

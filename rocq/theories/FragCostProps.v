(** C55: receiving takes a number of steps linear in the bytes received, however they are cut
    into chunks. *)

From Verif Require Import Bytes Features Nom Types Utf8 Conv Decode Fragmentizer FragSpec CostResp
  CostProps FragCost.
From Coq Require Import Lia.

Local Open Scope nat_scope.

(** ** Counting does not change what is done *)

Lemma line_parse_c_fst i : forall p, fst (line_parse_c p i) = line_parse p i.
Proof.
  induction i as [|b i IH]; intros p; cbn; auto.
  destruct (line_step (lp_latest p) b) as [lb [[ann e]|]]; cbn; auto.
  rewrite <- IH. destruct (line_parse_c _ i) as [[[p' n] f] c]. reflexivity.
Qed.
Lemma parse_fragment_c_fst p i : fst (parse_fragment_c p i) = parse_fragment p i.
Proof.
  destruct p as [lp|tp]; cbn.
  - rewrite <- line_parse_c_fst. destruct (line_parse_c lp i) as [[[p' n] f] c]. reflexivity.
  - destruct (literal_parse tp i) as [[p' n] f]. reflexivity.
Qed.
Theorem C55_counted_progress : forall s, fst (progress_c s) = progress s.
Proof.
  intros s. unfold progress_c, progress, start_message_c. destruct (start_message s) as [s1 p].
  rewrite <- parse_fragment_c_fst. destruct (parse_fragment_c p (unparsed s1)) as [[[p' n] f] c].
  cbn. destruct f; reflexivity.
Qed.
Lemma find_sp_c_fst i : fst (find_sp_c i) = find_sp i.
Proof.
  induction i as [|b i IH]; cbn; auto. destruct (beq b bSP); auto. destruct (beq b bLF); auto.
  rewrite <- IH. destruct (find_sp_c i) as [[t|] c]; reflexivity.
Qed.
Theorem C55_counted_tag : forall s, fst (decode_tag_c s) = decode_tag s.
Proof.
  intros s. unfold decode_tag_c, parse_tag_c, decode_tag, parse_tag. rewrite <- find_sp_c_fst.
  destruct (find_sp_c (buffer s)) as [[t|] c]; reflexivity.
Qed.
Theorem C55_counted_history : forall ops s, fst (run_c s ops) = fst (run s ops).
Proof.
  induction ops as [|o ops IH]; intros s; cbn; auto.
  assert (E : fst (call_c s o) = fst (step s o)).
  { destruct o; auto. unfold call_c, step. rewrite <- C55_counted_progress. destruct (progress_c s) as [[s' f] c]. reflexivity. }
  destruct (call_c s o) as [s1 c1], (step s o) as [s1' o1]. cbn in E. subst s1'.
  specialize (IH s1). destruct (run_c s1 ops), (run s1 ops). exact IH.
Qed.

(** ** One call of [progress] *)

Lemma line_parse_c_facts i : forall p p' n f c, line_parse_c p i = ((p', n, f), c) ->
  c = S n /\ n <= length i /\ match f with None => n = length i | Some f => 1 <= n /\ exists a b x e, f = FLine a b x e end.
Proof.
  induction i as [|b i IH]; intros p p' n f c; cbn.
  - intros [= <- <- <- <-]. auto.
  - destruct (line_step (lp_latest p) b) as [lb [[ann e]|]].
    + intros [= <- <- <- <-]. repeat split; try lia. eauto.
    + destruct (line_parse_c _ i) as [[[p1 n1] f1] c1] eqn:E. intros [= <- <- <- <-].
      apply IH in E as (-> & L & H). split; [lia|]. split; [lia|]. destruct f1; [|lia].
      destruct H as (H & X). split; [lia|exact X].
Qed.
Lemma literal_parse_facts p i p' n f : literal_parse p i = (p', n, f) ->
  n <= length i /\ match f with None => n = length i | Some f => exists a b, f = FLiteral a b end.
Proof.
  unfold literal_parse. destruct (N.ltb_spec (lenN i) (tp_remaining p)) as [H|H]; intros [= <- <- <-]; split; eauto.
  unfold lenN in H. lia.
Qed.
Lemma dequeue_facts s n : n <= length (unparsed s) ->
  length (unparsed (dequeue s n)) + n = length (unparsed s) /\
  length (buffer s) <= length (buffer (dequeue s n)) <= length (buffer s) + n /\
  fparser_of (dequeue s n) = fparser_of s.
Proof.
  intros L. unfold dequeue. destruct (max_size s) as [m|]; [destruct (Nat.ltb _ _)|];
    cbn [unparsed buffer fparser_of]; rewrite skipn_length, app_length, ?firstn_length; repeat split; lia.
Qed.

Definition is_lit (s : fragmentizer) : Prop :=
  match fparser_of s with Some (PLiteral _) => True | _ => False end.
(** what the current message holds already; a complete message counts no more *)
Definition held (s : fragmentizer) : nat :=
  match fparser_of s with None => 0 | Some _ => length (buffer s) end.

(** [n] is the number of bytes taken by this call *)
Lemma progress_c_facts s s' f c : progress_c s = ((s', f), c) ->
  exists n, length (unparsed s') + n = length (unparsed s) /\
    c <= 5 + 3 * n /\ 1 + n <= c /\
    length (buffer s') <= held s + n /\
    match f with
    | None => unparsed s' = [] /\ fparser_of s' <> None /\ (is_lit s' -> is_lit s)
    | Some _ => (is_lit s /\ fparser_of s' <> None /\ ~ is_lit s') \/ 1 <= n
    end.
Proof.
  unfold progress_c, start_message_c. destruct (start_message s) as [s1 p] eqn:Es.
  assert (Hs : unparsed s1 = unparsed s /\ length (buffer s1) = held s /\ fparser_of s1 = Some p /\
    (is_lit s <-> exists tp, p = PLiteral tp)).
  { unfold start_message, held, is_lit in *. destruct (fparser_of s) as [q|] eqn:Ep; injection Es as <- <-; cbn.
    - repeat split; auto; destruct q; try contradiction; eauto; now intros [? [=]].
    - repeat split; auto; try contradiction; now intros [? [=]]. }
  destruct Hs as (Hu & Hb & Hp & Hl). rewrite Hu.
  destruct (parse_fragment_c p (unparsed s)) as [[[p' n] f0] c2] eqn:E.
  set (sa := set_parser s1 (Some p')). intros X.
  assert (Hn : n <= length (unparsed s) /\ n <= length (unparsed sa)).
  { unfold sa. cbn. rewrite Hu. destruct p as [lp|tp]; cbn in E.
    - destruct (line_parse_c lp (unparsed s)) as [[[a b] d] e] eqn:E1. injection E as <- <- <- <-.
      apply line_parse_c_facts in E1. lia.
    - destruct (literal_parse tp (unparsed s)) as [[a b] d] eqn:E1. injection E as <- <- <- <-.
      apply literal_parse_facts in E1. lia. }
  destruct Hn as [Hn Hn']. destruct (dequeue_facts sa n Hn') as (D1 & D2 & D3).
  assert (Hc : c2 <= 2 + n).
  { destruct p as [lp|tp]; cbn in E.
    - destruct (line_parse_c lp (unparsed s)) as [[[a b] d] e] eqn:E1. injection E as <- <- <- <-.
      apply line_parse_c_facts in E1. lia.
    - destruct (literal_parse tp (unparsed s)) as [[a b] d] eqn:E1. injection E as <- <- <- <-. lia. }
  unfold dequeue_c in X. exists n.
  assert (Xc : c = S (1 + c2 + S (n + (length (buffer (dequeue sa n)) - length (buffer sa))))).
  { destruct f0; injection X as <- <- <-; reflexivity. }
  assert (Hbs : length (buffer sa) = held s) by exact Hb.
  assert (Hus : length (unparsed sa) = length (unparsed s)) by (unfold sa; cbn; now rewrite Hu).
  assert (Xb : buffer s' = buffer (dequeue sa n)) by (destruct f0; injection X as <- <- <-; reflexivity).
  assert (Xu : unparsed s' = unparsed (dequeue sa n)) by (destruct f0; injection X as <- <- <-; reflexivity).
  rewrite Xb, Xu. split; [lia|]. split; [lia|]. split; [lia|]. split; [lia|].
  destruct p as [lp|tp]; cbn in E.
  - destruct (line_parse_c lp (unparsed s)) as [[[a b] d] e] eqn:E1. injection E as <- <- <- <-.
    apply line_parse_c_facts in E1 as (_ & _ & H). destruct d as [d|].
    + destruct H as (H & _). injection X as <- <- <-. right. exact H.
    + injection X as <- <- <-. split; [|split].
      * apply length_zero_iff_nil. lia.
      * rewrite D3. discriminate.
      * unfold is_lit at 1. rewrite D3. cbn. contradiction.
  - destruct (literal_parse tp (unparsed s)) as [[a b] d] eqn:E1. injection E as <- <- <- <-.
    apply literal_parse_facts in E1 as (_ & H). destruct d as [d|].
    + destruct H as (x & y & ->). injection X as <- <- <-. left. cbn. split; [apply Hl; eauto|].
      split; [discriminate|auto].
    + injection X as <- <- <-. split; [|split].
      * apply length_zero_iff_nil. lia.
      * rewrite D3. discriminate.
      * intros _. apply Hl. eauto.
Qed.

(** ** Any history of calls *)

(** Whatever is called in which order: the steps are at most five for each call and four
    for each byte enqueued. So no byte is looked at again and again, however the stream is
    cut, and however often [progress] is called. *)
Theorem C55_history : forall ops s c s',
  run_c s ops = (s', c) ->
  c + 3 * length (unparsed s') <= 5 * length ops + 4 * length (fed ops) + 3 * length (unparsed s).
Proof.
  induction ops as [|o ops IH]; intros s c s'; cbn [run_c].
  - intros [= <- <-]. cbn. lia.
  - destruct (call_c s o) as [s1 c1] eqn:E1. destruct (run_c s1 ops) as [s2 c2] eqn:E2. intros [= <- <-].
    specialize (IH _ _ _ E2). unfold fed in *. cbn [flat_map length]. rewrite app_length.
    destruct o as [x| | |]; unfold call_c, enqueue_c, skip_message_c, poison_message_c in E1.
    + injection E1 as <- <-. cbn in IH. rewrite app_length in IH. lia.
    + destruct (progress_c s) as [[s3 f] c3] eqn:E3. injection E1 as <- <-.
      apply progress_c_facts in E3 as (n & H1 & H2 & _). cbn [length]. lia.
    + injection E1 as <- <-. cbn in *. lia.
    + injection E1 as <- <-. cbn in *. lia.
Qed.

(** and at least one for each call, each byte enqueued and each byte taken *)
Theorem C55_history_pays : forall ops s c s',
  run_c s ops = (s', c) ->
  length ops + 2 * length (fed ops) + length (unparsed s) <= c + length (unparsed s').
Proof.
  induction ops as [|o ops IH]; intros s c s'; cbn [run_c].
  - intros [= <- <-]. cbn. lia.
  - destruct (call_c s o) as [s1 c1] eqn:E1. destruct (run_c s1 ops) as [s2 c2] eqn:E2. intros [= <- <-].
    specialize (IH _ _ _ E2). unfold fed in *. cbn [flat_map length]. rewrite app_length.
    destruct o as [x| | |]; unfold call_c, enqueue_c, skip_message_c, poison_message_c in E1.
    + injection E1 as <- <-. cbn in IH. rewrite app_length in IH. lia.
    + destruct (progress_c s) as [[s3 f] c3] eqn:E3. injection E1 as <- <-.
      apply progress_c_facts in E3 as (n & H1 & _ & H2 & _). cbn [length]. lia.
    + injection E1 as <- <-. cbn in *. lia.
    + injection E1 as <- <-. cbn in *. lia.
Qed.

(** ** The receiving loop *)

Section Loop.
  Context (decode : fragmentizer -> nat) (k : nat).
  Hypothesis decode_linear : forall s, decode s <= k * (length (buffer s) + 1).

  (** what is paid for in advance *)
  Definition credit (s : fragmentizer) : nat :=
    (2 * k + 13) * length (unparsed s) + k * held s +
    match fparser_of s with Some (PLiteral _) => 5 | _ => 0 end.

  Lemma held_le s : held s <= length (buffer s).
  Proof. unfold held. destruct (fparser_of s); lia. Qed.
  Lemma lit_credit s : match fparser_of s with Some (PLiteral _) => 5 | _ => 0 end <= 5.
  Proof. destruct (fparser_of s) as [[|]|]; lia. Qed.
  Lemma drains_credit s n s' : drains_c decode s n s' -> n + credit s' <= credit s + 5.
  Proof.
    induction 1 as [s s' c E|s s1 f c n s' E D IH].
    - apply progress_c_facts in E as (n & H1 & H2 & _ & H4 & Hu & _ & Hl).
      unfold credit. rewrite Hu in *. cbn [length] in *. pose proof (held_le s').
      assert (L : match fparser_of s' with Some (PLiteral _) => 5 | _ => 0 end <=
                  match fparser_of s with Some (PLiteral _) => 5 | _ => 0 end).
      { unfold is_lit in Hl. destruct (fparser_of s') as [[|]|], (fparser_of s) as [[|]|]; cbn; try lia; tauto. }
      nia.
    - apply progress_c_facts in E as (m & H1 & H2 & _ & H4 & Hf).
      pose proof (decode_linear s1) as Hd. pose proof (held_le s1) as Hh.
      pose proof (lit_credit s1) as Hl.
      enough (c + (if is_message_complete s1 then decode s1 else 0) + credit s1 <= credit s) by lia.
      assert (Hx : (if is_message_complete s1 then decode s1 else 0) + k * held s1 <= k * (held s + m) + k * m \/
        m = 0 /\ (if is_message_complete s1 then decode s1 else 0) + k * held s1 <= k * (held s + m)).
      { unfold is_message_complete, held in *. destruct (fparser_of s1) as [q|] eqn:Ep; cbn.
        - destruct m; [right|left]; nia.
        - left. destruct Hf as [(_ & Hf & _)|Hf]; [congruence|]. nia. }
      destruct Hf as [(L1 & L2 & L3)|Hm].
      + unfold credit, is_lit in *. destruct (fparser_of s) as [[|]|]; try contradiction.
        destruct (fparser_of s1) as [[|]|]; try tauto. nia.
      + unfold credit. nia.
  Qed.
  Lemma receives_credit s chunks n s' : receives decode s chunks n s' ->
    n + credit s' <= credit s + (2 * k + 14) * length (concat chunks) + 6 * length chunks.
  Proof.
    induction 1 as [s|s x chunks c n s1 m s2 D -> R IH].
    - cbn. lia.
    - apply drains_credit in D. cbn [fst snd enqueue_c concat length] in *. rewrite app_length.
      assert (credit (enqueue s x) = credit s + (2 * k + 13) * length x) as E.
      { unfold credit, held. cbn. rewrite app_length. destruct (fparser_of s) as [[|]|]; nia. }
      rewrite E in D. nia.
  Qed.
End Loop.

Lemma find_sp_c_le i t c : find_sp_c i = (t, c) ->
  c <= length i + 1 /\ match t with Some t => length t <= length i | None => True end.
Proof.
  revert t c. induction i as [|b i IH]; intros t c; cbn.
  - intros [= <- <-]. cbn. lia.
  - destruct (beq b bSP); [intros [= <- <-]; cbn; lia|].
    destruct (beq b bLF); [intros [= <- <-]; cbn; lia|].
    destruct (find_sp_c i) as [[u|] d]; intros [= <- <-]; destruct (IH _ _ eq_refl); cbn; lia.
Qed.
Lemma decode_tag_linear s : snd (decode_tag_c s) <= 4 * (length (buffer s) + 1).
Proof.
  unfold decode_tag_c, parse_tag_c. destruct (find_sp_c (buffer s)) as [[t|] c] eqn:E;
    apply find_sp_c_le in E as [E1 E2]; cbn [snd]; lia.
Qed.
Lemma decode_message_linear cost k s : (forall i, cost i <= k * (length i + 1)) ->
  decode_message_c cost s <= (k + 1) * (length (buffer s) + 1).
Proof.
  intros H. specialize (H (buffer s)). unfold decode_message_c. destruct (exceeded s), (poisoned s); nia.
Qed.

(** The loop that drains every chunk and tries every decoder on every complete message: one
    bound for all combinations of features, all limits, all chunks with all contents *)
Theorem C55_receive : exists k, forall (F : features) max chunks n s,
  receives decode_all (frag_new max) chunks n s ->
  n <= k * (length (concat chunks) + length chunks).
Proof.
  destruct C56_command as [k1 H1], C56_response as [k2 H2], C56_greeting as [k3 H3],
    C56_authenticate_data as [k4 H4], C56_idle_done as [k5 H5].
  set (k := (k1 + 1) + (k2 + 1) + (k3 + 1) + (k4 + 1) + (k5 + 1) + 4).
  exists (2 * k + 14). intros F max chunks n s R.
  assert (L : forall s, decode_all s <= k * (length (buffer s) + 1)).
  { intros t. unfold decode_all, k.
    pose proof (decode_message_linear steps_command k1 t (H1 F)).
    pose proof (decode_message_linear steps_response k2 t (H2 F)).
    pose proof (decode_message_linear steps_greeting k3 t (H3 F)).
    pose proof (decode_message_linear steps_authenticate_data k4 t (H4 F)).
    pose proof (decode_message_linear steps_idle_done k5 t (H5 F)).
    pose proof (decode_tag_linear t). lia. }
  apply (receives_credit decode_all k L) in R.
  assert (E : credit k (frag_new max) = 0) by (unfold credit; cbn; lia). rewrite E in R. nia.
Qed.

(** The loop ends, for all chunks *)
Lemma drains_c_total decode : forall m s,
  2 * length (unparsed s) + match fparser_of s with Some (PLiteral _) => 1 | _ => 0 end < m ->
  exists n s', drains_c decode s n s'.
Proof.
  induction m as [|m IH]; intros s L; [lia|].
  destruct (progress_c s) as [[s1 [f|]] c] eqn:E.
  - pose proof E as E'. apply progress_c_facts in E as (n & H1 & _ & _ & _ & Hf).
    assert (L1 : 2 * length (unparsed s1) + match fparser_of s1 with Some (PLiteral _) => 1 | _ => 0 end < m).
    { destruct Hf as [(A1 & A2 & A3)|Hm].
      - unfold is_lit in *. destruct (fparser_of s) as [[|]|]; try contradiction.
        destruct (fparser_of s1) as [[|]|]; try tauto. lia.
      - assert (match fparser_of s1 with Some (PLiteral _) => 1 | _ => 0 end <= 1)
          by (destruct (fparser_of s1) as [[|]|]; lia).
        destruct (fparser_of s) as [[|]|]; lia. }
    destruct (IH s1 L1) as (n1 & s' & D). do 2 eexists. eapply drains_c_some; eauto.
  - do 2 eexists. eapply drains_c_none; eauto.
Qed.
Theorem C55_receive_total : forall decode chunks s, exists n s', receives decode s chunks n s'.
Proof.
  intros decode. induction chunks as [|x chunks IH]; intros s; [do 2 eexists; constructor|].
  destruct (drains_c_total decode _ (fst (enqueue_c s x)) (Nat.lt_succ_diag_r _)) as (n & s1 & D).
  destruct (IH s1) as (m & s2 & R). do 2 eexists. econstructor; eauto.
Qed.

(** The loop is a history of calls that feeds the chunks, so C01-C05 say what it shows *)
Lemma run_app ops1 : forall s s1 o1 ops2, run s ops1 = (s1, o1) ->
  run s (ops1 ++ ops2) = let '(s2, o2) := run s1 ops2 in (s2, o1 ++ o2).
Proof.
  induction ops1 as [|o ops1 IH]; intros s s1 o1 ops2; cbn.
  - intros [= <- <-]. now destruct (run s ops2).
  - destruct (step s o) as [sa oa]. destruct (run sa ops1) as [sb ob] eqn:E. intros [= <- <-].
    rewrite (IH _ _ _ ops2 E). destruct (run sb ops2). now rewrite app_assoc.
Qed.
Lemma drains_history decode s n s' : drains_c decode s n s' ->
  exists ops obs, feeds ops /\ fed ops = [] /\ run s ops = (s', obs).
Proof.
  induction 1 as [s s' c E|s s1 f c n s' E D (ops & obs & Hf & He & Hr)].
  - exists [Progress], []. repeat split; [repeat constructor|]. cbn [run step].
    rewrite <- C55_counted_progress, E. reflexivity.
  - exists (Progress :: ops), ([observe s1 f] ++ obs). repeat split; [constructor; auto|exact He|].
    cbn [run step]. rewrite <- C55_counted_progress, E. cbn [fst]. rewrite Hr. reflexivity.
Qed.
Theorem C55_receive_history : forall decode s chunks n s', receives decode s chunks n s' ->
  exists ops obs, feeds ops /\ fed ops = concat chunks /\ run s ops = (s', obs).
Proof.
  induction 1 as [s|s x chunks c n s1 m s2 D _ R (ops & obs & Hf & He & Hr)].
  - exists [], []. repeat split. constructor.
  - apply drains_history in D as (ops1 & obs1 & Hf1 & He1 & Hr1).
    exists (Enqueue x :: ops1 ++ ops), (obs1 ++ obs). repeat split.
    + constructor; [exact I|]. apply Forall_app. auto.
    + unfold fed in *. cbn [flat_map concat]. rewrite flat_map_app, He1, He. reflexivity.
    + cbn [run step]. cbn [fst enqueue_c] in Hr1. rewrite (run_app _ _ _ _ ops Hr1), Hr. reflexivity.
Qed.

(** A login with a literal, byte by byte and at once; a line of many openings *)
Definition ex_login : bytes := bs "a LOGIN b {1}" ++ [bCR; bLF] ++ bs "c" ++ [bCR; bLF].
Example C55_examples :
  snd (run_c (frag_new None) (Enqueue ex_login :: repeat Progress 4)) = 92 /\
  snd (run_c (frag_new None) (flat_map (fun b => [Enqueue [b]; Progress]) ex_login ++ repeat Progress 4)) = 199 /\
  snd (run_c (frag_new None) (flat_map (fun b => [Enqueue [b]; Progress]) (repeat "{"%byte 100))) = 1000.
Proof. vm_compute. repeat split. Qed.
Example C55_receive_example : let _ := default_features in
  exists n s, receives decode_all (frag_new None) [bs "a NO"; bs "OP" ++ [bCR; bLF]] n s /\ n = 163.
Proof.
  intros F. do 2 eexists. split.
  - eapply (receives_cons _ _ _ _ _ _ _ _ _); [|reflexivity|].
    + eapply drains_c_none. vm_compute. reflexivity.
    + eapply receives_cons; [|reflexivity|apply receives_nil].
      eapply drains_c_some; [vm_compute; reflexivity|]. eapply drains_c_none. vm_compute. reflexivity.
  - vm_compute. reflexivity.
Qed.

Print Assumptions C55_counted_progress.
Print Assumptions C55_counted_tag.
Print Assumptions C55_counted_history.
Print Assumptions C55_history.
Print Assumptions C55_history_pays.
Print Assumptions C55_receive.
Print Assumptions C55_receive_total.
Print Assumptions C55_receive_history.

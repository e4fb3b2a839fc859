(** Proofs about the positions of fragments, for FragInfoProps.v. *)

From Verif Require Import Bytes BytesFacts Features Nom Types Conv Decode Ctors Fragmentizer FragSpec FragFacts FragExample.
Open Scope nat_scope.

Definition clip (max : option N) (n : nat) : nat :=
  match max with None => n | Some m => Nat.min (N.to_nat m) n end.
(** [start] and [e] of the fragment that is being parsed; [e] is also the length of the message
    so far. *)
Definition placed (s : fragmentizer) (start e : nat) : Prop :=
  length (buffer s) = clip (max_size s) e /\
  match fparser_of s with
  | Some (PLine p) => lp_start p = start /\ lp_end p = e
  | Some (PLiteral p) => tp_start p = start /\ tp_end p = e
  | None => True
  end /\ start <= e.

Lemma line_parse_places i : forall p p' n f, line_parse p i = (p', n, f) ->
  lp_start p' = lp_start p /\ lp_end p' = lp_end p + n /\ n <= length i /\
  (forall g, f = Some g -> exists ann en, g = FLine (lp_start p) (lp_end p + n) ann en).
Proof.
  induction i as [| b i IH]; intros p p' n f; cbn [line_parse].
  - intros [= <- <- <-]. repeat split; try lia. discriminate.
  - destruct (line_step (lp_latest p) b) as [lb [[ann e]|]].
    + intros [= <- <- <-]. cbn. repeat split; try lia. intros g [= <-]. exists ann, e. f_equal. lia.
    + destruct (line_parse _ i) as [[p'' k] g] eqn:E. intros [= <- <- <-].
      apply IH in E as (E1 & E2 & E3 & E4). cbn in *. repeat split; try lia.
      intros h Eh. destruct (E4 h Eh) as (a & en & ->). exists a, en. f_equal. lia.
Qed.
Lemma literal_parse_places i p p' n f : literal_parse p i = (p', n, f) ->
  tp_start p' = tp_start p /\ tp_end p' = tp_end p + n /\ n <= length i /\
  (forall g, f = Some g -> g = FLiteral (tp_start p) (tp_end p + n)).
Proof.
  unfold literal_parse. destruct (N.ltb_spec (lenN i) (tp_remaining p)) as [L | L]; intros [= <- <- <-]; cbn.
  - repeat split; try lia. discriminate.
  - repeat split; try (unfold lenN in L; lia). now intros g [= <-].
Qed.

Lemma dequeue_placed s n : n <= length (unparsed s) ->
  forall e, length (buffer s) = clip (max_size s) e ->
  length (buffer (dequeue s n)) = clip (max_size s) (e + n) /\
  exists x, buffer (dequeue s n) = buffer s ++ x.
Proof.
  intros Hn e Hb. unfold dequeue. destruct (max_size s) as [m |]; cbn [clip] in *.
  - destruct (Nat.ltb_spec (N.to_nat (m - lenN (buffer s))) n) as [L | L]; cbn [buffer]; (split; [| eauto]);
      rewrite app_length, !firstn_length; unfold lenN in *; lia.
  - cbn [buffer]. split; [| eauto]. rewrite app_length, firstn_length. lia.
Qed.
Lemma dequeue_parser s n : fparser_of (dequeue s n) = fparser_of s.
Proof. unfold dequeue. destruct (max_size s); [| reflexivity]. now destruct (Nat.ltb _ n). Qed.

(** A call of [progress] in the middle of a message *)
Lemma progress_placed s start e s1 f : placed s start e -> is_message_complete s = false ->
  progress s = (s1, f) ->
  exists n x, buffer s1 = buffer s ++ x /\ max_size s1 = max_size s /\
    match f with
    | None => placed s1 start (e + n)
    | Some g => frag_range g = (start, e + n) /\ length (buffer s1) = clip (max_size s) (e + n) /\
        placed s1 (e + n) (e + n) /\ start <= e
    end.
Proof.
  intros (Hb & Hp & Hs) Hc. unfold is_message_complete in Hc. unfold progress, start_message.
  destruct (fparser_of s) as [p |] eqn:Ep; [| discriminate].
  destruct (parse_fragment p (unparsed s)) as [[p' n] g] eqn:E.
  assert (K : n <= length (unparsed s) /\
    match p' with
    | PLine q => lp_start q = start /\ lp_end q = e + n
    | PLiteral q => tp_start q = start /\ tp_end q = e + n
    end /\ (forall h, g = Some h -> frag_range h = (start, e + n))).
  { destruct p as [p | p]; cbn [parse_fragment] in E; destruct Hp as [<- <-].
    - destruct (line_parse p (unparsed s)) as [[q k] h] eqn:El. injection E as <- <- <-.
      apply line_parse_places in El as (E1 & E2 & E3 & E4). rewrite E1, E2.
      repeat split; try lia. intros g Eg. destruct (E4 g Eg) as (a & en & ->). reflexivity.
    - destruct (literal_parse p (unparsed s)) as [[q k] h] eqn:El. injection E as <- <- <-.
      apply literal_parse_places in El as (E1 & E2 & E3 & E4). rewrite E1, E2.
      repeat split; try lia. intros g Eg. rewrite (E4 g Eg). reflexivity. }
  destruct K as (Hn & Hq & Hr).
  destruct (dequeue_placed (set_parser s (Some p')) n Hn e Hb) as (L & x & Ex).
  cbn [set_parser buffer max_size] in L, Ex.
  destruct g as [g |]; intros [= <- <-]; exists n, x.
  - cbn [set_parser buffer max_size]. rewrite dequeue_max. cbn [set_parser max_size].
    repeat split; try assumption; try lia.
    + now apply Hr.
    + cbn [set_parser buffer max_size]. rewrite dequeue_max. exact L.
    + specialize (Hr g eq_refl). cbn [set_parser fparser_of].
      destruct g as [a b [an |] en | a b]; cbn in Hr |- *; injection Hr as _ ->; auto.
  - rewrite dequeue_max. cbn [set_parser max_size].
    repeat split; try assumption; try lia.
    + rewrite dequeue_max. exact L.
    + rewrite dequeue_parser. cbn [set_parser fparser_of]. exact Hq.
Qed.
(** ... and after a complete one: as after [skip_message] *)
Lemma progress_complete s : is_message_complete s = true -> progress s = progress (skip_message s).
Proof.
  unfold is_message_complete, progress, start_message, skip_message. destruct (fparser_of s); [discriminate | reflexivity].
Qed.
Lemma placed_skip s : placed (skip_message s) 0 0.
Proof. unfold placed. cbn. destruct (max_size s); cbn; auto using Nat.min_0_r. Qed.
Lemma placed_new max : placed (frag_new max) 0 0.
Proof. unfold placed. cbn. destruct max; cbn; auto using Nat.min_0_r. Qed.

Lemma step_placed s o start e : placed s start e -> exists start' e', placed (fst (step s o)) start' e'.
Proof.
  intros P. destruct o; cbn [step fst].
  - exists start, e. exact P.
  - destruct (is_message_complete s) eqn:C.
    + rewrite (progress_complete s C). destruct (progress (skip_message s)) as [s1 f] eqn:E.
      destruct (progress_placed _ _ _ _ _ (placed_skip s) eq_refl E) as (n & x & _ & _ & K).
      destruct f; [destruct K as (_ & _ & K & _) |]; eauto.
    + destruct (progress s) as [s1 f] eqn:E.
      destruct (progress_placed _ _ _ _ _ P C E) as (n & x & _ & _ & K).
      destruct f; [destruct K as (_ & _ & K & _) |]; eauto.
  - exists 0, 0. apply placed_skip.
  - exists start, e. exact P.
Qed.
Lemma fst_run_cons s o ops : fst (run s (o :: ops)) = fst (run (fst (step s o)) ops).
Proof. cbn [run]. destruct (step s o) as [s1 o1]. cbn [fst]. now destruct (run s1 ops). Qed.
Lemma snd_run_cons s o ops : snd (run s (o :: ops)) = snd (step s o) ++ snd (run (fst (step s o)) ops).
Proof. cbn [run]. destruct (step s o) as [s1 o1]. cbn [fst snd]. now destruct (run s1 ops). Qed.
Lemma run_placed ops : forall s start e, placed s start e -> exists start' e', placed (fst (run s ops)) start' e'.
Proof.
  induction ops as [| o ops IH]; intros s start e P; [eauto |]. rewrite fst_run_cons.
  destruct (step_placed s o start e P) as (a & b & Q). eauto.
Qed.
Lemma reached_placed max ops : exists start e, placed (fst (run (frag_new max) ops)) start e.
Proof. exact (run_placed ops _ _ _ (placed_new max)). Qed.

(** What is known when a fragment is returned, in whatever state *)
Lemma progress_returns max ops s f : progress (fst (run (frag_new max) ops)) = (s, Some f) ->
  fst (frag_range f) <= snd (frag_range f) /\
  length (buffer s) = clip (max_size s) (snd (frag_range f)) /\
  placed s (snd (frag_range f)) (snd (frag_range f)).
Proof.
  destruct (reached_placed max ops) as (start & e & P). set (z := fst (run (frag_new max) ops)) in *. clearbody z.
  intros E. destruct (is_message_complete z) eqn:C.
  - rewrite (progress_complete z C) in E.
    destruct (progress_placed _ _ _ _ _ (placed_skip z) eq_refl E) as (n & x & _ & M & Er & L & Q & Hs).
    rewrite Er. cbn [fst snd]. rewrite M. auto with arith.
  - destruct (progress_placed _ _ _ _ _ P C E) as (n & x & _ & M & Er & L & Q & Hs).
    rewrite Er. cbn [fst snd]. rewrite M. split; [lia | auto].
Qed.

(** While the message is the same, the buffer grows, but not above the limit. *)
Lemma stays_grows ops : forall s start e, placed s start e -> stays s ops ->
  exists x, buffer (fst (run s ops)) = buffer s ++ x /\ max_size (fst (run s ops)) = max_size s /\
    exists start' e', placed (fst (run s ops)) start' e'.
Proof.
  induction ops as [| o ops IH]; intros s start e P St.
  - exists []. cbn [run fst]. rewrite app_nil_r. eauto.
  - rewrite fst_run_cons. destruct o as [y | | |]; cbn [stays step fst] in *; try contradiction.
    + apply (IH (enqueue s y) start e P St).
    + destruct St as (C & St). destruct (progress s) as [s1 f] eqn:E. cbn [fst] in *.
      destruct (progress_placed _ _ _ _ _ P C E) as (n & x & Ex & M & K).
      assert (Q : exists a b, placed s1 a b) by (destruct f; [destruct K as (_ & _ & K & _) |]; eauto).
      destruct Q as (a & b & Q). destruct (IH s1 a b Q St) as (x' & Ex' & M' & Q').
      exists (x ++ x'). rewrite Ex', Ex, app_assoc, M', M. auto.
    + apply (IH (poison_message s) start e P St).
Qed.
Lemma clipped_slice (x y : bytes) max a b e :
  length x = clip max b -> length (x ++ y) = clip max e -> slice a b (x ++ y) = slice a b x.
Proof.
  intros Hx Hy. unfold slice. destruct (Nat.le_gt_cases b (length x)) as [L | L].
  - destruct (Nat.le_gt_cases a (length x)) as [La | La].
    + rewrite skipn_app. replace (a - length x) with 0 by lia. cbn [skipn].
      rewrite firstn_app, skipn_length. replace (b - a - (length x - a)) with 0 by lia.
      cbn [firstn]. now rewrite app_nil_r.
    + replace (b - a) with 0 by lia. reflexivity.
  - assert (y = []) as ->; [| now rewrite app_nil_r].
    rewrite app_length in Hy. destruct max as [m |]; cbn [clip] in *; [| lia].
    apply length_zero_iff_nil. lia.
Qed.

(** What the next fragment will be: a line ([l = None]) or a literal of [n] bytes ([l = Some n]),
    starting at [b]. *)
Definition awaits (s : fragmentizer) (b : nat) (l : option N) : Prop :=
  match fparser_of s, l with
  | None, None => b = 0
  | Some (PLine p), None => lp_start p = b
  | Some (PLiteral p), Some n => tp_start p = b /\ (N.of_nat (tp_end p) + tp_remaining p = N.of_nat b + n)%N
  | _, _ => False
  end.
Definition is_awaited (b : nat) (l : option N) (g : fragment_info) : Prop :=
  match l with
  | None => exists stop ann en, g = FLine b stop ann en
  | Some n => g = FLiteral b (b + N.to_nat n)
  end.
Lemma awaits_progress s b l s1 f : awaits s b l -> progress s = (s1, f) ->
  match f with None => awaits s1 b l | Some g => is_awaited b l g end.
Proof.
  intros A. unfold progress.
  assert (exists s0 p, start_message s = (s0, p) /\ awaits (set_parser s0 (Some p)) b l) as (s0 & p & -> & A0).
  { unfold start_message, awaits in *. destruct (fparser_of s) as [p |] eqn:E; eexists _, _; (split; [reflexivity |]); cbn.
    - exact A.
    - destruct l; [contradiction | auto]. }
  clear A. unfold awaits in A0. cbn [set_parser fparser_of] in A0.
  destruct p as [p | p]; cbn [parse_fragment]; (destruct l as [n |]; try contradiction).
  - destruct (line_parse p (unparsed s0)) as [[q k] g] eqn:E. apply line_parse_places in E as (E1 & _ & _ & E4).
    destruct g as [g |]; intros [= <- <-].
    + destruct (E4 g eq_refl) as (ann & en & ->). rewrite A0. cbn. eauto.
    + unfold awaits. rewrite dequeue_parser. cbn. congruence.
  - destruct A0 as (A1 & A2). unfold literal_parse.
    destruct (N.ltb_spec (lenN (unparsed s0)) (tp_remaining p)) as [L | L]; intros [= <- <-].
    + unfold awaits. rewrite dequeue_parser. cbn. split; [exact A1 |]. unfold lenN in *. lia.
    + cbn [is_awaited]. rewrite A1. f_equal. lia.
Qed.
Lemma awaits_run ops : forall s b l, awaits s b l ->
  Forall (fun o => o <> Skip) ops -> snd (run s ops) = [] -> awaits (fst (run s ops)) b l.
Proof.
  induction ops as [| o ops IH]; intros s b l A No E; [exact A |].
  inversion No as [| ? ? N1 N2]; subst. rewrite snd_run_cons in E. apply app_eq_nil in E as (E1 & E2).
  rewrite fst_run_cons. apply IH; [| exact N2 | exact E2].
  destruct o as [y | | |]; cbn [step fst snd] in *; try congruence; try exact A.
  destruct (progress s) as [s1 [g |]] eqn:P; [discriminate |]. exact (awaits_progress _ _ _ _ _ A P).
Qed.
Definition after_fragment (f : fragment_info) : nat * option N :=
  match f with
  | FLine _ _ None _ => (0, None)
  | FLine _ b (Some a) _ => (b, Some (ann_length a))
  | FLiteral _ b => (b, None)
  end.
Lemma awaits_after s s1 f : progress s = (s1, Some f) ->
  awaits s1 (fst (after_fragment f)) (snd (after_fragment f)).
Proof.
  unfold progress. destruct (start_message s) as [s0 p].
  destruct (parse_fragment p (unparsed s0)) as [[p' n] [g |]]; intros [= <- <-].
  unfold awaits. cbn [set_parser fparser_of]. now destruct g as [a b [an |] en | a b].
Qed.

(** ** [fragment_slice] *)
Lemma fragment_slice_some s f : fst (frag_range f) <= snd (frag_range f) -> fragment_slice s f = Some (fragment_bytes s f).
Proof.
  unfold fragment_slice, fragment_bytes. destruct (frag_range f) as [a b]. cbn [fst snd]. intros H.
  destruct (Nat.ltb_spec (Nat.min b (length (buffer s))) (Nat.min a (length (buffer s)))); [lia | reflexivity].
Qed.
Lemma fragment_slice_none s f : fragment_slice s f = None <->
  snd (frag_range f) < fst (frag_range f) /\ snd (frag_range f) < length (buffer s).
Proof.
  unfold fragment_slice. destruct (frag_range f) as [a b]. cbn [fst snd].
  destruct (Nat.ltb_spec (Nat.min b (length (buffer s))) (Nat.min a (length (buffer s)))).
  - split; [intros _; lia | reflexivity].
  - split; [discriminate | lia].
Qed.

(** ** The example *)
Lemma results_shown o : filter is_result (shown_for o) = shown_for o.
Proof. unfold shown_for. cbn. now destruct (ob_complete o). Qed.
Lemma slice_observed s1 f b : fragment_slice s1 f = Some b -> b = fragment_bytes s1 f.
Proof.
  unfold fragment_slice, fragment_bytes. destruct (frag_range f) as [x y]. now destruct (Nat.ltb _ _); intros [= <-].
Qed.
Lemma shows_drains s reads es : shows s reads es ->
  exists obs s', drains (enqueue s (concat reads)) obs s' /\ filter is_result es = flat_map shown_for obs.
Proof.
  induction 1 as [s s1 f b reads es P Sl R IH | s s1 P | s s1 x reads es P Hx R IH].
  - destruct IH as (obs & s' & D & E). apply slice_observed in Sl as ->.
    exists (observe s1 f :: obs), s'. split.
    + change (observe s1 f) with (observe (enqueue s1 (concat reads)) f).
      eapply drains_some; [exact (progress_some_enqueue _ (concat reads) _ _ P) | exact D].
    + cbn [flat_map]. rewrite <- E, <- (results_shown (observe s1 f)), <- filter_app. reflexivity.
  - exists [], s1. cbn. rewrite enqueue_nil. split; [now apply drains_none | reflexivity].
  - destruct IH as (obs & s' & D & E). exists obs, s'. split; [| exact E]. cbn [concat].
    rewrite enqueue_app in D. pose proof (progress_none_enqueue _ (x ++ concat reads) _ P) as K.
    inversion D; subst; [apply drains_none | eapply drains_some; [| eassumption]]; now rewrite K.
Qed.
Lemma shows_total reads : Forall (fun x => 1 <= length x <= 64) reads ->
  forall s a e, placed s a e -> exists es, shows s reads es.
Proof.
  induction 1 as [| x reads Hx Hr IH]; intros s a e Pl; destruct (drains_total s) as (obs & s' & D);
    revert a e Pl; induction D as [s s' P | s s1 f obs s' P D IHD]; intros a e Pl.
  - eexists. eapply shows_closed; exact P.
  - assert (K : exists a b, placed s1 a b /\ fst (frag_range f) <= snd (frag_range f)).
    { destruct (is_message_complete s) eqn:C.
      - rewrite (progress_complete s C) in P.
        destruct (progress_placed _ _ _ _ _ (placed_skip s) eq_refl P) as (n & y & _ & _ & Er & _ & Q & Hs).
        rewrite Er. cbn. eexists _, _. split; [exact Q | lia].
      - destruct (progress_placed _ _ _ _ _ Pl C P) as (n & y & _ & _ & Er & _ & Q & Hs).
        rewrite Er. cbn. eexists _, _. split; [exact Q | lia]. }
    destruct K as (a' & e' & Q & L). destruct (IHD _ _ Q) as (es & R). eexists.
    eapply shows_fragment; [exact P | exact (fragment_slice_some s1 f L) | exact R].
  - destruct (step_placed s Progress a e Pl) as (a' & e' & Q). cbn [step] in Q. rewrite P in Q. cbn [fst] in Q.
    destruct (IH (enqueue s' x) a' e' Q) as (es & R). eexists. eapply shows_reads; eassumption.
  - assert (K : exists a b, placed s1 a b /\ fst (frag_range f) <= snd (frag_range f)).
    { destruct (is_message_complete s) eqn:C.
      - rewrite (progress_complete s C) in P.
        destruct (progress_placed _ _ _ _ _ (placed_skip s) eq_refl P) as (n & y & _ & _ & Er & _ & Q & Hs).
        rewrite Er. cbn. eexists _, _. split; [exact Q | lia].
      - destruct (progress_placed _ _ _ _ _ Pl C P) as (n & y & _ & _ & Er & _ & Q & Hs).
        rewrite Er. cbn. eexists _, _. split; [exact Q | lia]. }
    destruct K as (a' & e' & Q & L). destruct (IHD _ _ Q) as (es & R). eexists.
    eapply shows_fragment; [exact P | exact (fragment_slice_some s1 f L) | exact R].
Qed.

(** ** [read_line] *)
Lemma ends_with_iff t s : ends_with t s = true <-> exists u, s = u ++ t.
Proof.
  induction s as [| b s IH]; cbn [ends_with]; rewrite orb_true_iff, beqs_eq.
  - split; [intros [-> | E]; [now exists [] | discriminate] |].
    intros (u & E). symmetry in E. apply app_eq_nil in E as (-> & ->). now left.
  - rewrite IH. split.
    + intros [-> | (u & ->)]; [now exists [] | now exists (b :: u)].
    + intros ([| c u] & E); [now left |]. injection E as <- ->. right. now exists u.
Qed.

(** Messages and the fragmentizer (C57). *)

From Verif Require Import Bytes BytesFacts Features Nom Types Decode Fragmentizer FragSpec FragFacts FragProps StreamSpec StreamFacts
  SyncSpec SyncFacts.
Open Scope nat_scope.

(** The message so far, for what is expected next *)
Definition part (e : expectation) (msg : bytes) : Prop :=
  match e with
  | ExpectLine => calm msg
  | ExpectLiteral n => exists c h a, msg = c ++ h /\ calm c /\ is_line h /\ announces h a /\ n = ann_length a
  end.
Lemma part_literal n msg d : part (ExpectLiteral n) msg -> lenN d = n -> calm (msg ++ d).
Proof.
  intros (c & h & a & -> & C & L & A & ->) E. rewrite <- app_assoc. apply calm_app; [exact C |].
  replace (h ++ d) with (h ++ d ++ []) by now rewrite app_nil_r. apply (calm_literal h d a); auto. apply calm_nil.
Qed.
Lemma part_line msg l a : calm msg -> is_line l -> announces l a -> part (ExpectLiteral (ann_length a)) (msg ++ l).
Proof. intros C L A. exists msg, l, a. auto. Qed.

Section Judge.
Context {E A : Type} (dec : bytes -> outcome E A).
Lemma splits_messages max e s fs e' r : splits e s fs e' r -> forall msg, part e msg ->
  exists ms rest, msg ++ s = concat ms ++ rest /\ Forall message ms /\ unfinished rest /\
    flat_map (of_obs dec) (expected max msg fs) = map (judged dec max) ms.
Proof.
  induction 1 as [s N | n s N | l ann ending s fs e rest L An En S IH | n d s fs e rest D S IH]; intros msg P.
  - exists [], (msg ++ s). repeat split; [constructor |]. now apply calm_unfinished; [| apply no_lf_unfinished].
  - exists [], (msg ++ s). repeat split; [constructor |]. destruct P as (c & h & a & -> & C & Lh & Ah & ->).
    rewrite <- app_assoc. apply calm_unfinished; [exact C |]. apply (header_unfinished h a); auto.
  - destruct ann as [a |]; cbn [announcement_of after_line] in *.
    + destruct (IH (msg ++ l) (part_line msg l a P L An)) as (ms & rs & E1 & F & U & J).
      exists ms, rs. rewrite app_assoc, E1. repeat split; auto.
    + destruct (IH [] calm_nil) as (ms & rs & E1 & F & U & J). exists ((msg ++ l) :: ms), rs. cbn [app concat] in *.
      rewrite E1. assert (M : message (msg ++ l)) by (apply calm_message; [exact P |]; now apply message_last).
      repeat split; [now rewrite <- !app_assoc | now constructor | exact U |].
      cbn [expected flat_map ends_message frag_bytes map]. rewrite J. unfold of_obs at 1.
      cbn [ob_complete ob_exceeded ob_poisoned ob_message app]. unfold judged at 2, decide.
      destruct (too_long max (msg ++ l)) eqn:T; [reflexivity |]. now rewrite (limited_fits _ _ T).
  - destruct (IH (msg ++ d) (part_literal n msg d P D)) as (ms & rs & E1 & F & U & J).
    exists ms, rs. rewrite app_assoc, E1. repeat split; auto.
Qed.
Lemma messages_fun s ms rest ms' rest' : messages s ms rest -> messages s ms' rest' -> ms = ms' /\ rest = rest'.
Proof.
  intros (-> & F & U) (E1 & F' & U'). revert ms' E1 F'. induction F as [| m ms M F IH]; intros ms' E1 F'.
  - destruct F' as [| m' ms' M' F']; [auto |]. cbn in E1. exfalso. rewrite <- app_assoc in E1. exact (U _ _ E1 M').
  - cbn [concat] in E1. rewrite <- app_assoc in E1. destruct F' as [| m' ms' M' F'].
    + exfalso. cbn in E1. exact (U' _ _ (eq_sym E1) M).
    + cbn [concat] in E1. rewrite <- app_assoc in E1. pose proof (message_unique m M _ _ _ M' E1) as <-.
      apply app_inv_head in E1. destruct (IH _ E1 F') as [-> ->]. auto.
Qed.
Lemma receives_messages max ops got ms rest : feeds ops -> messages (fed ops) ms rest ->
  receives dec (frag_new max) ops got -> got = map (judged dec max) ms.
Proof.
  intros Hf M R. destruct (run_drain_total (frag_new max) ops) as (obs & s & R1).
  rewrite (receives_obs dec _ _ _ _ _ R R1). apply run_drain_spec in R1 as (fs & e & r & S & -> & _); [| exact Hf].
  destruct (splits_messages max _ _ _ _ _ S [] calm_nil) as (ms' & rest' & E1 & F & U & J). cbn [app] in E1.
  rewrite J. f_equal. symmetry. eapply messages_fun; [exact M | exact (conj E1 (conj F U))].
Qed.
Lemma messages_exist s : exists ms rest, messages s ms rest.
Proof.
  destruct (splits_total s) as (fs & e & r & S). destruct (splits_messages None _ _ _ _ _ S [] calm_nil) as (ms & rest & E1 & F & U & _).
  exists ms, rest. exact (conj E1 (conj F U)).
Qed.
End Judge.

(** Every completed message, after every history of calls *)
Lemma expected_complete max e s fs e' r : splits e s fs e' r -> forall msg, part e msg -> forall o,
  In o (expected max msg fs) -> ob_complete o = true ->
  exists m, message m /\ ob_message o = limited max m /\ ob_exceeded o = too_long max m.
Proof.
  induction 1 as [s N | n s N | l ann ending s fs e rest L An En S IH | n d s fs e rest D S IH]; intros msg P o I K; try contradiction I.
  - destruct I as [<- | I].
    + destruct ann as [a |]; [discriminate |]. exists (msg ++ l). split; [| now split].
      apply calm_message; [exact P |]. now apply message_last.
    + destruct ann as [a |]; cbn [announcement_of after_line ends_message frag_bytes] in *.
      * now apply (IH (msg ++ l) (part_line msg l a P L An)).
      * now apply (IH [] calm_nil).
  - destruct I as [<- | I]; [discriminate |]. now apply (IH (msg ++ d) (part_literal n msg d P D)).
Qed.
Definition skipless (ops : list call) : Prop := Forall (fun o => o <> Skip) ops.
Lemma skipless_feeds ops : skipless ops -> feeds (no_poison ops).
Proof.
  unfold feeds, no_poison. induction 1 as [| x l Hx H IH]; cbn; [constructor |].
  destruct x; cbn; [now constructor | now constructor | now destruct Hx | exact IH].
Qed.
Lemma run_complete_feeds max ops o : skipless ops -> In o (snd (run (frag_new max) ops)) -> ob_complete o = true ->
  exists m, message m /\ ob_message o = limited max m /\ ob_exceeded o = too_long max m.
Proof.
  intros H I K. pose proof (run_unpoison ops (frag_new max)) as U. change (unpoison (frag_new max)) with (frag_new max) in U.
  assert (Hf : feeds (no_poison ops)) by now apply skipless_feeds.
  assert (I2 : In (unpoison_obs o) (snd (run (frag_new max) (no_poison ops)))) by (rewrite U; now apply in_map).
  destruct (run (frag_new max) (no_poison ops)) as [s1 o1] eqn:R. cbn [snd] in I2.
  destruct (drains_total s1) as (o2 & s' & D).
  assert (R1 : run_drain (frag_new max) (no_poison ops) (o1 ++ o2) s') by (exists s1, o1, o2; auto).
  apply run_drain_spec in R1 as (fs & e & r & S & E & _); [| exact Hf].
  assert (I3 : In (unpoison_obs o) (expected max [] fs)) by (rewrite <- E; apply in_or_app; now left).
  exact (expected_complete max _ _ _ _ _ S [] calm_nil _ I3 K).
Qed.
Lemma split_skip ops : skipless ops \/ exists a b, ops = a ++ Skip :: b /\ skipless a.
Proof.
  induction ops as [| x l [IH | (a & b & -> & IH)]]; [left; constructor | |].
  - destruct x; try (left; now constructor). right. exists [], l. split; [reflexivity | constructor].
  - destruct x; try (right; eexists (_ :: a), b; split; [reflexivity | now constructor]).
    right. exists [], (a ++ Skip :: b). split; [reflexivity | constructor].
Qed.
Lemma run_complete max n : forall ops o, length ops <= n -> In o (snd (run (frag_new max) ops)) -> ob_complete o = true ->
  exists m, message m /\ ob_message o = limited max m /\ ob_exceeded o = too_long max m.
Proof.
  induction n as [| n IH]; intros ops o L I K.
  - destruct ops; [contradiction I | cbn in L; lia].
  - destruct (split_skip ops) as [H | (a & b & -> & H)]; [now apply (run_complete_feeds max ops) |].
    pose proof (C07_after_skip max a b) as E. cbn zeta in E. rewrite E in I. cbn [snd] in I.
    apply in_app_or in I as [I | I]; [now apply (run_complete_feeds max a) |].
    rewrite app_length in L. cbn [length] in L.
    destruct a as [| x a]; [| apply (IH _ _) in I; [exact I | cbn in *; lia | exact K]].
    (* [Enqueue] of nothing *)
    cbn [run fst unparsed frag_new] in I. cbn [run step] in I.
    change (enqueue (frag_new max) []) with (frag_new max) in I.
    destruct (run (frag_new max) b) as [s2 o2] eqn:R. cbn [snd app] in I. apply (IH b); [cbn in L; lia | now rewrite R | exact K].
Qed.

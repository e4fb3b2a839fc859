(** The parsers of Stack.v give the result of the parsers they are taken from when they have room. *)

From Verif Require Import Bytes BytesFacts Dec Features Nom Types Utf8 Conv
  ParserFacts ParseCore ParseBody ParseCmd ParseResp Valid OkTac OkCore OkBody
  ValueSpec Grammar SoundTac SoundCore SoundBody SizeFacts DepthProps Stack.
Open Scope nat_scope.

(** ** Parsers with the same results *)

Definition peq {A} (p q : parser A) : Prop := forall i, p i = q i.
Lemma peq_refl {A} (p : parser A) : peq p p.
Proof. now intros i. Qed.
Lemma peq_bind {A B} (p q : parser A) (f g : A -> parser B) :
  peq p q -> (forall a, peq (f a) (g a)) -> peq (bind p f) (bind q g).
Proof. intros E1 E2 i. unfold bind. rewrite E1. destruct (q i); try reflexivity. apply E2. Qed.
Lemma peq_orp {A} (p q p' q' : parser A) : peq p p' -> peq q q' -> peq (orp p q) (orp p' q').
Proof. intros E1 E2 i. unfold orp. now rewrite E1, E2. Qed.
Lemma peq_alt {A} (ps qs : list (parser A)) : Forall2 peq ps qs -> peq (alt ps) (alt qs).
Proof.
  induction 1 as [| p q ps qs E E' IH]; [apply peq_refl |]. cbn [alt].
  destruct E'; [exact E |]. now apply peq_orp.
Qed.
Lemma peq_opt {A} (p q : parser A) : peq p q -> peq (opt p) (opt q).
Proof. intros E i. unfold opt. now rewrite E. Qed.
Lemma peq_many0 {A} (p q : parser A) : peq p q -> peq (many0 p) (many0 q).
Proof.
  intros E i. unfold many0. generalize (S (length i)). intros f. revert i.
  induction f as [| f IH]; intros i; [reflexivity |]. cbn [many0_f]. rewrite E.
  destruct (q i) as [r a | | | |]; try reflexivity. now rewrite IH.
Qed.
Lemma peq_many1 {A} (p q : parser A) : peq p q -> peq (many1 p) (many1 q).
Proof.
  intros E. apply peq_bind; [exact E |]. intros a.
  apply peq_bind; [now apply peq_many0 | intros l; apply peq_refl].
Qed.
Lemma peq_many_m {A} m (p q : parser A) : peq p q -> peq (many_m m p) (many_m m q).
Proof.
  intros E. induction m as [| m IH]; [now apply peq_many0 |]. intros i. cbn [many_m]. rewrite E.
  destruct (q i) as [r a | | | |]; try reflexivity. now rewrite IH.
Qed.
Lemma peq_sep_loop {A B} (s : parser B) (p q : parser A) : peq p q -> peq (sep_loop s p) (sep_loop s q).
Proof.
  intros E i. unfold sep_loop. generalize (S (length i)). intros f. revert i.
  induction f as [| f IH]; intros i; [reflexivity |]. cbn [sep_loop_f].
  destruct (s i) as [r a | | | |]; try reflexivity. rewrite E.
  destruct (q r) as [r' a' | | | |]; try reflexivity. now rewrite IH.
Qed.
Lemma peq_sep_list1 {A B} (s : parser B) (p q : parser A) :
  peq p q -> peq (sep_list1 s p) (sep_list1 s q).
Proof.
  intros E. apply peq_bind; [exact E |]. intros a.
  apply peq_bind; [now apply peq_sep_loop | intros l; apply peq_refl].
Qed.
Lemma peq_pmap {A B} (f : A -> B) (p q : parser A) : peq p q -> peq (pmap f p) (pmap f q).
Proof. intros E. apply peq_bind; [exact E | intros a; apply peq_refl]. Qed.
Lemma peq_expect {A B} (p q : parser A) (f : A -> option B) : peq p q -> peq (expect p f) (expect q f).
Proof. intros E. apply peq_bind; [exact E | intros a; apply peq_refl]. Qed.
Lemma peq_vecn {A} n (p q : parser (list A)) : peq p q -> peq (vecn n p) (vecn n q).
Proof. apply peq_expect. Qed.
Lemma peq_delimited {A B C} (o : parser A) (p q : parser B) (c : parser C) :
  peq p q -> peq (delimited o p c) (delimited o q c).
Proof.
  intros E. apply peq_bind; [apply peq_refl |]. intros _.
  apply peq_bind; [exact E | intros x; apply peq_refl].
Qed.
Lemma peq_terminated {A B} (p q : parser A) (c : parser B) :
  peq p q -> peq (terminated p c) (terminated q c).
Proof. intros E. apply peq_bind; [exact E | intros x; apply peq_refl]. Qed.
Lemma peq_agree {A} k (p q : parser A) : peq p q -> agree k p q.
Proof. intros E i _. apply E. Qed.

Ltac pq1 :=
  match goal with
  | |- peq ?p ?p => apply peq_refl
  | |- peq (alt _) (alt _) => apply peq_alt
  | |- Forall2 peq _ _ => constructor
  | |- peq (pmap _ _) (pmap _ _) => apply peq_pmap
  | |- peq (opt _) (opt _) => apply peq_opt
  | |- peq (many0 _) (many0 _) => apply peq_many0
  | |- peq (many1 _) (many1 _) => apply peq_many1
  | |- peq (many_m _ _) (many_m _ _) => apply peq_many_m
  | |- peq (sep_list1 _ _) (sep_list1 _ _) => apply peq_sep_list1
  | |- peq (vec1 _) (vec1 _) => apply peq_vecn
  | |- peq (vec2 _) (vec2 _) => apply peq_vecn
  | |- peq (expect _ _) (expect _ _) => apply peq_expect
  | |- peq (delimited _ _ _) (delimited _ _ _) => apply peq_delimited
  | |- peq (terminated _ _) (terminated _ _) => apply peq_terminated
  | |- peq (bind _ _) (bind _ _) => apply peq_bind; [| intros ?]
  | |- peq (let '(_, _) := ?x in _) _ => destruct x
  | |- peq (match ?x with (_, _) => _ end) _ => destruct x
  end.
Ltac pq := repeat (first [assumption | pq1]).

Section Peq.
Context {F : features}.

Lemma s_body_extension_enough : forall d n, n < d -> peq (p_body_extension n) (s_body_extension d n).
Proof.
  induction d as [| d IH]; intros n L; [lia |]. cbn [s_body_extension].
  destruct n as [| n]; [apply peq_refl |]. cbn [p_body_extension].
  assert (E : peq (p_body_extension n) (s_body_extension d n)) by (apply IH; lia). pq.
Qed.
Lemma s_body_ext_1part_enough d : 8 < d -> peq p_body_ext_1part (s_body_ext_1part d).
Proof.
  intros L. pose proof (s_body_extension_enough d 8 L) as E.
  unfold p_body_ext_1part, s_body_ext_1part, p_disposition, s_disposition, p_language, s_language,
    p_location, s_location. pq.
Qed.
Lemma s_body_ext_mpart_enough d : 8 < d -> peq p_body_ext_mpart (s_body_ext_mpart d).
Proof.
  intros L. pose proof (s_body_extension_enough d 8 L) as E.
  unfold p_body_ext_mpart, s_body_ext_mpart, p_disposition, s_disposition, p_language, s_language,
    p_location, s_location. pq.
Qed.
Lemma s_search_key_enough : forall d n, n < d -> peq (p_search_key n) (s_search_key d n).
Proof.
  induction d as [| d IH]; intros n L; [lia |]. cbn [s_search_key].
  destruct n as [| n]; [apply peq_refl |]. cbn [p_search_key].
  assert (E : peq (p_search_key n) (s_search_key d n)) by (apply IH; lia). pq.
Qed.
Lemma s_thread_list_enough : forall d n, n < d -> peq (p_thread_list n) (s_thread_list d n).
Proof.
  induction d as [| d IH]; intros n L; [lia |]. cbn [s_thread_list].
  destruct n as [| n]; [apply peq_refl |]. cbn [p_thread_list].
  assert (E : peq (p_thread_list n) (s_thread_list d n)) by (apply IH; lia). pq.
Qed.
Lemma s_command_enough d : 9 < d -> peq p_command (s_command d).
Proof.
  intros L. pose proof (s_search_key_enough d 9 L) as E.
  assert (Es : peq p_search_keys (s_search_keys d)) by (unfold p_search_keys, s_search_keys; pq).
  assert (Ec : peq p_search_criteria (s_search_criteria d))
    by (unfold p_search_criteria, s_search_criteria; pq).
  assert (Eq : peq p_search (s_search d)) by (unfold p_search, s_search; pq).
  assert (Eb : peq p_command_body (s_command_body d)).
  { unfold p_command_body, s_command_body, p_command_select, s_command_select, p_uid, s_uid, p_sort,
      s_sort, p_thread, s_thread. pq. }
  unfold p_command, s_command. apply peq_bind; [apply peq_refl |]. intros t i. f_equal.
  unfold pmap, bind. now rewrite Eb.
Qed.
Lemma s_thread_data_enough d : 8 < d -> peq p_thread_data (s_thread_data d).
Proof.
  intros L. pose proof (s_thread_list_enough d 8 L) as E. unfold p_thread_data, s_thread_data. pq.
Qed.
Lemma s_mailbox_data_enough d : 8 < d -> peq p_mailbox_data (s_mailbox_data d).
Proof.
  intros L. pose proof (s_thread_data_enough d L) as E. unfold p_mailbox_data, s_mailbox_data. pq.
Qed.

(** ** Bodies *)

Definition takes {A} (m : nat) (p : parser A) : Prop :=
  forall i r a, p i = ROk r a -> m + length r <= length i.
Lemma agree_bind_takes {A B} m k (p : parser A) (f g : A -> parser B) :
  takes m p -> (forall a, agree (k - m) (f a) (g a)) -> agree k (bind p f) (bind p g).
Proof.
  intros T E i L. unfold bind. destruct (p i) as [r a | | | |] eqn:Ei; try reflexivity.
  apply E. pose proof (T _ _ _ Ei). lia.
Qed.
Lemma agree_mono {A} k k' (p q : parser A) : agree k p q -> k' <= k -> agree k' p q.
Proof. intros E L i Li. apply E. lia. Qed.
Lemma takes_kw s : takes (length s) (tag_no_case s).
Proof.
  intros i r a H. apply kw_inv in H as (k & -> & E). rewrite app_length.
  apply same_letters_length in E. lia.
Qed.
Lemma takes_sp : takes 1 sp.
Proof. intros i r a H. apply char_inv in H as [-> _]. cbn. lia. Qed.
Lemma takes_sound {A} m (p : parser A) (L : lang A) : sound p L -> shortest L m -> takes m p.
Proof.
  intros S H i r a E. apply S in E as (t & -> & G). apply H in G. rewrite app_length. lia.
Qed.
Lemma takes_fields : takes 13 p_body_fields.
Proof. exact (takes_sound _ _ _ sound_fields short_fields). Qed.
Lemma takes_envelope : takes 37 p_envelope.
Proof. exact (takes_sound _ _ _ sound_envelope short_envelope). Qed.

Lemma s_body_enough : forall d k f n, n <= 8 -> k <= f -> (k = 0 \/ 71 * n + 6 * k + 581 < 77 * d) ->
  agree k (p_body_f f n) (s_body d n).
Proof.
  induction d as [| d IH]; intros k f n Ln Lk [-> | L]; try (intros i Li; lia).
  destruct f as [| f]; [intros i Li; lia |]. cbn [p_body_f s_body].
  destruct n as [| n]; [apply agree_refl |].
  destruct k as [| k]; [intros i Li; lia |].
  assert (Hf : forall n, ok k (v_bs n) (p_body_f f n)).
  { intros m. apply (ok_mono f); [apply ok_p_body_f | lia]. }
  unfold delimited. apply agree_bind_eats; [apply eats_tag |]. intros _.
  apply (agree_bind k (v_bs (S n))); [| | intros; apply agree_refl].
  { apply ok_alt_cons; [now apply ok_p_body_type_1part |].
    apply ok_alt_cons; [now apply ok_p_body_type_mpart | apply ok_alt_nil]. }
  cbn [alt]. destruct n as [| n]; [apply agree_refl |].
  apply agree_orp.
  - unfold p_body_type_1part, s_body_type_1part.
    apply (agree_bind k (vpair (v_basic LDecoded) v_spec)).
    { apply ok_alt_cons; [now apply ok_p_body_type_msg |].
      apply ok_alt_cons; [apply ok_p_body_type_text |].
      apply ok_alt_cons; [apply ok_p_body_type_basic | apply ok_alt_nil]. }
    2:{ intros [b s]. apply peq_agree.
        assert (E : peq p_body_ext_1part (s_body_ext_1part d)) by (apply s_body_ext_1part_enough; lia). pq. }
    cbn [alt]. apply agree_orp; [| apply agree_refl].
    unfold p_body_type_msg, p_media_message.
    eapply agree_bind_takes; [apply takes_kw |]. intros _.
    eapply agree_bind_takes; [apply takes_sp |]. intros _.
    eapply agree_bind_takes; [apply takes_fields |]. intros b.
    eapply agree_bind_takes; [apply takes_sp |]. intros _.
    eapply agree_bind_takes; [apply takes_envelope |]. intros e.
    eapply agree_bind_takes; [apply takes_sp |]. intros _.
    eapply agree_bind; [| | intros s; apply agree_refl].
    { eapply ok_mono; [apply (Hf 7) | lia]. }
    change (length _) with 18. apply IH; lia.
  - unfold p_body_type_mpart, s_body_type_mpart.
    assert (Hm : ok k (v1 (v_bs (S n))) (vec1 (many1 (p_body_f f (S n))))).
    { apply ok_vec1, ok_m1, Hf. }
    eapply agree_bind; [exact Hm | |].
    + unfold vec1, vecn, expect. eapply agree_bind; [| | intros; apply agree_refl].
      { apply ok_m1, Hf. }
      eapply agree_many1; [apply Hf |]. apply IH; lia.
    + intros l. apply peq_agree.
      assert (E : peq p_body_ext_mpart (s_body_ext_mpart d)) by (apply s_body_ext_mpart_enough; lia). pq.
Qed.

(** ** Responses *)

Lemma agree_alt {A} k (ps qs : list (parser A)) : Forall2 (agree k) ps qs -> agree k (alt ps) (alt qs).
Proof.
  induction 1 as [| p q ps qs E E' IH]; [apply agree_refl |]. cbn [alt].
  destruct E'; [exact E |]. now apply agree_orp.
Qed.
Lemma agree_pmap {A B} k (f : A -> B) (p q : parser A) : agree k p q -> agree k (pmap f p) (pmap f q).
Proof. intros E i L. unfold pmap, bind. now rewrite (E i L). Qed.
Lemma agree_then {A B} k (v : A -> bool) (p : parser A) (f g : A -> parser B) :
  ok k v p -> (forall a, agree k (f a) (g a)) -> agree k (bind p f) (bind p g).
Proof. intros H E. apply (agree_bind k v); [exact H | apply agree_refl | exact E]. Qed.
Lemma agree_before {A B} k (p q : parser A) (f : A -> parser B) :
  agree k p q -> agree k (bind p f) (bind q f).
Proof. intros E i L. unfold bind. now rewrite (E i L). Qed.
Lemma agree_sep_loop {A B} k (v : A -> bool) (s : parser B) (p q : parser A) :
  ok k any s -> ok k v p -> agree k p q -> agree k (sep_loop s p) (sep_loop s q).
Proof.
  intros Hs Hp E i. unfold sep_loop. generalize (S (length i)). intros f. revert i.
  induction f as [| f IH]; intros i L; [reflexivity |]. cbn [sep_loop_f].
  destruct (s i) as [r a | | | |] eqn:Es; try reflexivity.
  assert (L' : length r < k) by (pose proof (ok_len Hs _ _ _ L Es); lia).
  rewrite <- (E r L').
  destruct (p r) as [r' a' | | | |] eqn:Ep; try reflexivity.
  rewrite IH; [reflexivity |]. pose proof (ok_len Hp _ _ _ L' Ep). lia.
Qed.
Lemma agree_sep_list1 {A B} k (v : A -> bool) (s : parser B) (p q : parser A) :
  ok k any s -> ok k v p -> agree k p q -> agree k (sep_list1 s p) (sep_list1 s q).
Proof.
  intros Hs Hp E. apply (agree_bind k v); [exact Hp | exact E |]. intros a.
  apply agree_before. now apply (agree_sep_loop k v).
Qed.

Lemma s_msg_att_enough d k : agree k (p_body 8) (s_body d 8) -> agree k p_msg_att (s_msg_att d).
Proof.
  intros E. unfold p_msg_att, s_msg_att, delimited.
  eapply agree_then; [apply ok_tg |]. intros _. apply agree_before.
  unfold vec1, vecn, expect. apply agree_before.
  eapply agree_sep_list1; [apply ok_sp | |].
  { apply ok_alt_cons; [apply ok_p_msg_att_dynamic |].
    apply ok_alt_cons; [apply ok_p_msg_att_static | apply ok_alt_nil]. }
  apply agree_alt. repeat apply Forall2_cons; try apply agree_refl; [| constructor].
  unfold p_msg_att_static, s_msg_att_static. apply agree_alt.
  repeat apply Forall2_cons; try apply agree_refl; try constructor;
    apply agree_pmap; (eapply agree_then; [apply ok_kw |]); intros _; exact E.
Qed.
Lemma s_response_enough d k : 16 <= d -> agree k (p_body 8) (s_body d 8) -> agree k p_response (s_response d).
Proof.
  intros L E. apply s_msg_att_enough in E.
  assert (Em : agree k p_message_data (s_message_data d)).
  { unfold p_message_data, s_message_data. apply agree_alt.
    repeat apply Forall2_cons; try apply agree_refl; [| constructor].
    eapply agree_then; [| intros s].
    { unfold terminated. eapply ok_bind; [apply ok_p_nz_number |]. intros a Ha.
      eapply ok_bind; [apply ok_sp |]. intros _ _. now apply ok_ret. }
    apply agree_alt. repeat apply Forall2_cons; try apply agree_refl; [| constructor].
    apply agree_pmap. eapply agree_then; [apply ok_kw |]. intros _. exact E. }
  assert (Ed : agree k p_response_data (s_response_data d)).
  { unfold p_response_data, s_response_data, delimited.
    eapply agree_then; [apply ok_tg |]. intros _. apply agree_before. apply agree_alt.
    repeat apply Forall2_cons; try apply agree_refl; [| | constructor]; apply agree_pmap; [| exact Em].
    apply peq_agree, s_mailbox_data_enough. lia. }
  unfold p_response, s_response. apply agree_alt.
  repeat apply Forall2_cons; try apply agree_refl; [exact Ed | constructor].
Qed.
End Peq.

(** [ok] for the parsers of ParseBody.v. *)

From Verif Require Import Bytes BytesFacts Dec Features Nom Types Utf8 Conv
  ParserFacts ParseCore ParseBody Valid OkTac OkCore.
Open Scope nat_scope.

(** *** Parsers that agree on short inputs *)
Section Agree.
Context {F : features}.
Definition agree {A} (k : nat) (p q : parser A) := forall i, length i < k -> p i = q i.

Lemma agree_refl {A} k (p : parser A) : agree k p p.
Proof. now intros i _. Qed.
Lemma agree_bind {A B} k (v : A -> bool) (p q : parser A) (f g : A -> parser B) :
  ok k v p -> agree k p q -> (forall a, agree k (f a) (g a)) -> agree k (bind p f) (bind q g).
Proof.
  intros Hp E1 E2 i L. unfold bind. rewrite <- (E1 i L).
  destruct (p i) as [r a | | | |] eqn:E; try reflexivity.
  apply E2. pose proof (ok_len Hp _ _ _ L E). lia.
Qed.
Lemma agree_bind_eats {A B} k (p : parser A) (f g : A -> parser B) :
  eats p -> (forall a, agree k (f a) (g a)) -> agree (S k) (bind p f) (bind p g).
Proof.
  intros D E i L. unfold bind. destruct (p i) as [r a | | | |] eqn:Ei; try reflexivity.
  apply E. pose proof (D _ _ _ Ei). lia.
Qed.
Lemma agree_orp {A} k (p q p' q' : parser A) :
  agree k p p' -> agree k q q' -> agree k (orp p q) (orp p' q').
Proof. intros E1 E2 i L. unfold orp. now rewrite (E1 i L), (E2 i L). Qed.
Lemma agree_many0_f {A} k (v : A -> bool) (p q : parser A) f :
  ok k v p -> agree k p q -> agree k (many0_f f p) (many0_f f q).
Proof.
  intros Hp E. induction f as [| f IH]; intros i L; [reflexivity |]. cbn [many0_f].
  rewrite <- (E i L). destruct (p i) as [r a | | | |] eqn:Ei; try reflexivity.
  destruct (Nat.ltb (length r) (length i)); [| reflexivity].
  rewrite IH; [reflexivity |]. pose proof (ok_len Hp _ _ _ L Ei). lia.
Qed.
Lemma agree_many0 {A} k (v : A -> bool) (p q : parser A) :
  ok k v p -> agree k p q -> agree k (many0 p) (many0 q).
Proof. intros Hp E i L. unfold many0. now apply (agree_many0_f k v). Qed.
Lemma agree_many1 {A} k (v : A -> bool) (p q : parser A) :
  ok k v p -> agree k p q -> agree k (many1 p) (many1 q).
Proof.
  intros Hp E. apply (agree_bind k v); auto. intros a.
  apply (agree_bind k (forallb v)); [now apply ok_many0 | now apply (agree_many0 k v) |].
  intros l. apply agree_refl.
Qed.
Lemma eats_tag c t : eats (tag (c :: t)).
Proof.
  intros i r a H. apply tag_inv in H as ->. rewrite app_length. cbn. lia.
Qed.
End Agree.

Section OkBody.
Context {F : features}.
Notation lv := LDecoded.

(** *** envelope.rs *)
Lemma ok_p_address k : ok k (v_address lv) p_address.
Proof.
  unfold p_address. eapply (ok_bind k any).
  { destruct quirk_spaces_between_addresses; [| now apply ok_ret].
    eapply ok_bind; [oks |]. intros _ _. now apply ok_ret. }
  intros _ _. oks. apply ok_ret. unfold v_address. cbn. okv.
Qed.
Hint Resolve ok_p_address : okdb.
Lemma ok_p_addresses k : ok k (v_addresses lv) p_addresses.
Proof.
  unfold p_addresses, v_addresses. apply ok_alt_cons; [| oks].
  eapply ok_weaken; [oks |]. okv.
Qed.
Hint Resolve ok_p_addresses : okdb.
Lemma ok_p_envelope k : ok k (v_envelope lv) p_envelope.
Proof. unfold p_envelope. oks. apply ok_ret. unfold v_envelope. cbn. okv. Qed.
Hint Resolve ok_p_envelope : okdb.

(** *** body.rs *)
Lemma ok_p_pair k : ok k (vpair (v_istring lv) (v_istring lv)) p_pair.
Proof. unfold p_pair. oks. Qed.
Hint Resolve ok_p_pair : okdb.
Lemma ok_p_body_fld_param k : ok k (v_params lv) p_body_fld_param.
Proof. unfold p_body_fld_param, v_params. oks. Qed.
Hint Resolve ok_p_body_fld_param : okdb.
Lemma ok_p_body_fld_enc k : ok k (v_istring lv) p_body_fld_enc.
Proof.
  unfold p_body_fld_enc. destruct quirk_body_fld_enc_nil_to_empty; [| oks].
  eapply ok_pmap; [oks |]. intros [s |] H; [exact H | reflexivity].
Qed.
Lemma ok_p_body_fld_octets k : ok k v_u32 p_body_fld_octets.
Proof. unfold p_body_fld_octets. destruct quirk_rectify_numbers; oks. Qed.
Hint Resolve ok_p_body_fld_enc ok_p_body_fld_octets : okdb.
Lemma ok_p_body_fields k : ok k (v_basic lv) p_body_fields.
Proof. unfold p_body_fields. oks. apply ok_ret. unfold v_basic. cbn. okv. Qed.
Hint Resolve ok_p_body_fields : okdb.

Lemma list_max_forall {A} (d : A -> nat) n l :
  forallb (fun x => Nat.leb (d x) n) l = true -> list_max (map d l) <= n.
Proof.
  intros H. apply list_max_le. apply Forall_map, Forall_forall. intros x Hx.
  rewrite forallb_forall in H. now apply Nat.leb_le, H.
Qed.
Lemma forallb_and {A} (f g : A -> bool) l :
  forallb (fun x => f x && g x) l = forallb f l && forallb g l.
Proof.
  induction l as [| x l IH]; [reflexivity |]. cbn. rewrite IH.
  destruct (f x), (g x), (forallb f l); reflexivity.
Qed.

Definition v_be n b := v_body_extension lv b && Nat.leb (be_depth b) n.
Lemma ok_p_body_extension k n : ok k (v_be n) (p_body_extension n).
Proof.
  induction n as [| n IH]; [apply ok_pfail |]. cbn [p_body_extension].
  apply ok_alt_cons; [| apply ok_alt_cons; [| apply ok_alt_cons; [| apply ok_alt_nil]]].
  - eapply ok_pmap; [oks |]. intros a H. unfold v_be. cbn. now rewrite H.
  - eapply ok_pmap; [oks |]. intros a H. unfold v_be. cbn. now rewrite H.
  - eapply ok_pmap; [oks; exact IH |]. intros l H.
    apply andb_true_iff in H as [H1 H]. unfold v_be in H. rewrite forallb_and in H.
    apply andb_true_iff in H as [H2 H3]. unfold v_be. cbn [v_body_extension be_depth].
    rewrite H1, H2. cbn [andb]. apply Nat.leb_le, le_n_S. now apply list_max_forall.
Qed.
Hint Resolve ok_p_body_extension : okdb.
Lemma ok_p_body_fld_dsp k :
  ok k (vopt (vpair (v_istring lv) (v_params lv))) p_body_fld_dsp.
Proof. unfold p_body_fld_dsp. oks. Qed.
Lemma ok_p_body_fld_lang k : ok k (forallb (v_istring lv)) p_body_fld_lang.
Proof.
  unfold p_body_fld_lang. apply ok_alt_cons; [| apply ok_alt_cons; [| oks]].
  - eapply ok_pmap; [oks |]. intros [s |] H; [| reflexivity].
    change (v_istring lv s = true) in H. cbn [forallb]. now rewrite H.
  - ok_weak.
Qed.
Hint Resolve ok_p_body_fld_dsp ok_p_body_fld_lang : okdb.
Lemma ok_p_location k : ok k (v_location lv) p_location.
Proof.
  unfold p_location. eapply ok_bind; [oks |]. intros _ _. eapply ok_bind; [oks |]. intros l Hl.
  eapply ok_bind; [oks |]. intros es Hes. apply ok_ret. unfold v_location. cbn.
  rewrite Hl. exact Hes.
Qed.
Hint Resolve ok_p_location : okdb.
Lemma ok_p_language k : ok k (v_language lv) p_language.
Proof. unfold p_language. oks. apply ok_ret. unfold v_language. cbn. okv. Qed.
Hint Resolve ok_p_language : okdb.
Lemma ok_p_disposition k : ok k (v_disposition lv) p_disposition.
Proof. unfold p_disposition. oks. apply ok_ret. unfold v_disposition. cbn. okv. Qed.
Hint Resolve ok_p_disposition : okdb.
Lemma ok_p_body_ext_1part k : ok k (v_single_ext lv) p_body_ext_1part.
Proof. unfold p_body_ext_1part. oks. apply ok_ret. unfold v_single_ext. cbn. okv. Qed.
Lemma ok_p_body_ext_mpart k : ok k (v_multi_ext lv) p_body_ext_mpart.
Proof. unfold p_body_ext_mpart. oks. apply ok_ret. unfold v_multi_ext. cbn. okv. Qed.
Hint Resolve ok_p_body_ext_1part ok_p_body_ext_mpart : okdb.

Definition v_spec (s : specific_fields) : bool :=
  match s with
  | SFBasic t s => v_istring lv t && v_istring lv s
  | SFMessage env b' lines =>
    v_envelope lv env && (v_body_structure lv b' && body_fits 6 b') && v_u32 lines
  | SFText s lines => v_istring lv s && v_u32 lines
  end.
Definition v_bs (n : nat) (b : body_structure) : bool :=
  v_body_structure lv b && body_fits (pred n) b.
Lemma ok_p_body_type_basic k : ok k (vpair (v_basic lv) v_spec) p_body_type_basic.
Proof. unfold p_body_type_basic. oks. Qed.
Lemma ok_p_body_type_text k : ok k (vpair (v_basic lv) v_spec) p_body_type_text.
Proof. unfold p_body_type_text, p_media_text. oks. Qed.
Hint Resolve ok_p_body_type_basic ok_p_body_type_text : okdb.
Lemma ok_p_body_type_msg k pb : (forall n, ok k (v_bs n) (pb n)) ->
  ok k (vpair (v_basic lv) v_spec) (p_body_type_msg pb).
Proof.
  intros H. unfold p_body_type_msg, p_media_message.
  eapply ok_bind; [oks |]. intros _ _. eapply ok_bind; [oks |]. intros _ _.
  eapply ok_bind; [oks |]. intros b Hb. eapply ok_bind; [oks |]. intros _ _.
  eapply ok_bind; [oks |]. intros e He. eapply ok_bind; [oks |]. intros _ _.
  eapply ok_bind; [apply H |]. intros s Hs. eapply ok_bind; [oks |]. intros _ _.
  eapply ok_bind; [oks |]. intros n Hn. apply ok_ret. unfold vpair. cbn [fst snd v_spec].
  change (body_fits 6 s) with (body_fits (pred 7) s). unfold v_bs in Hs.
  now rewrite Hb, He, Hs, Hn.
Qed.
Lemma ok_p_body_type_1part k pb n : (forall n, ok k (v_bs n) (pb n)) ->
  ok k (v_bs (S n)) (p_body_type_1part pb n).
Proof.
  intros H. destruct n as [| n]; [apply ok_pfail |]. unfold p_body_type_1part.
  apply (ok_bind k (vpair (v_basic lv) v_spec)).
  - apply ok_alt_cons; [now apply ok_p_body_type_msg | oks].
  - intros [b s] Hbs. eapply ok_bind; [oks |]. intros x Hx. apply ok_ret.
    unfold vpair in Hbs. cbn [fst snd] in Hbs. apply andb_true_iff in Hbs as [Hb Hs].
    unfold v_bs. cbn [pred v_body_structure]. unfold v_spec in Hs.
    rewrite Hb, Hx. cbn [andb].
    destruct s as [t s | e b' l | s l]; cbn [body_fits Nat.leb andb].
    + now rewrite Hs.
    + repeat match goal with H : (_ && _)%bool = true |- _ => apply andb_true_iff in H as [? ?] end.
      repeat match goal with H : ?x = true |- context [?x] => rewrite H end. reflexivity.
    + now rewrite Hs.
Qed.
Lemma ok_p_body_type_mpart k pb n : (forall n, ok k (v_bs n) (pb n)) ->
  ok k (v_bs (S n)) (p_body_type_mpart pb n).
Proof.
  intros H. destruct n as [| n]; [apply ok_pfail |]. unfold p_body_type_mpart.
  apply (ok_bind k (v1 (v_bs (S n)))); [oks; apply H |]. intros l Hl.
  eapply ok_bind; [oks |]. intros _ _. eapply ok_bind; [oks |]. intros s Hs.
  eapply ok_bind; [oks |]. intros x Hx. apply ok_ret.
  apply andb_true_iff in Hl as [Hl1 Hl2]. unfold v_bs in Hl2. rewrite forallb_and in Hl2.
  apply andb_true_iff in Hl2 as [Hl2 Hl3].
  unfold v_bs. cbn [pred v_body_structure body_fits Nat.leb] in *.
  rewrite Hl1, Hl2, Hs, Hx. exact Hl3.
Qed.

Lemma ok_p_body_f fuel : forall n, ok fuel (v_bs n) (p_body_f fuel n).
Proof.
  induction fuel as [| fuel IH]; intros n.
  { intros i L. lia. }
  cbn [p_body_f]. destruct n as [| n]; [apply ok_pfail |]. unfold delimited.
  apply (ok_bind_eats fuel any); [apply eats_tag | apply ok_tg |]. intros _ _.
  apply (ok_bind fuel (v_bs (S n))).
  - apply ok_alt_cons; [now apply ok_p_body_type_1part |].
    apply ok_alt_cons; [now apply ok_p_body_type_mpart | apply ok_alt_nil].
  - intros b Hb. eapply ok_bind; [oks |]. intros _ _. now apply ok_ret.
Qed.

Lemma agree_p_body_f : forall f g n, agree (Nat.min f g) (p_body_f f n) (p_body_f g n).
Proof.
  induction f as [| f IH]; intros g n; [intros i L; lia |].
  destruct g as [| g]; [intros i L; lia |].
  cbn [p_body_f Nat.min]. destruct n as [| n]; [apply agree_refl |].
  set (k := Nat.min f g) in *. unfold delimited.
  assert (Hf : forall n, ok k (v_bs n) (p_body_f f n)).
  { intros m. apply (ok_mono f); [apply ok_p_body_f | lia]. }
  apply agree_bind_eats; [apply eats_tag |]. intros _.
  apply (agree_bind k (v_bs (S n))); [| | intros; apply agree_refl].
  { apply ok_alt_cons; [now apply ok_p_body_type_1part |].
    apply ok_alt_cons; [now apply ok_p_body_type_mpart | apply ok_alt_nil]. }
  cbn [alt]. destruct n as [| n]; [apply agree_refl |].
  apply agree_orp.
  - unfold p_body_type_1part.
    apply (agree_bind k (vpair (v_basic lv) v_spec)); [| | intros; apply agree_refl].
    { apply ok_alt_cons; [now apply ok_p_body_type_msg | oks]. }
    cbn [alt]. apply agree_orp; [| apply agree_refl].
    unfold p_body_type_msg, p_media_message.
    eapply agree_bind; [oks | apply agree_refl |]. intros _.
    eapply agree_bind; [oks | apply agree_refl |]. intros _.
    eapply agree_bind; [oks | apply agree_refl |]. intros b.
    eapply agree_bind; [oks | apply agree_refl |]. intros _.
    eapply agree_bind; [oks | apply agree_refl |]. intros e.
    eapply agree_bind; [oks | apply agree_refl |]. intros _.
    eapply agree_bind; [apply Hf | apply IH |]. intros s. apply agree_refl.
  - unfold p_body_type_mpart. unfold vec1, vecn, expect.
    assert (Hm : ok k (v1 (v_bs (S n))) (many1 (p_body_f f (S n)))) by (oks; apply Hf).
    eapply agree_bind; [| | intros; apply agree_refl].
    { apply ok_vec1 in Hm. unfold vec1, vecn, expect in Hm. exact Hm. }
    eapply agree_bind; [exact Hm | | intros; apply agree_refl].
    eapply agree_many1; [apply Hf | apply IH].
Qed.

Lemma ok_p_body k n : ok k (v_bs n) (p_body n).
Proof.
  apply (ok_eq k _ (p_body_f k n)); [apply ok_p_body_f |]. intros i L. unfold p_body.
  apply agree_p_body_f. lia.
Qed.
Lemma ok_p_body8 k : ok k (v_body lv) (p_body 8).
Proof. apply (ok_weaken k _ _ _ (ok_p_body k 8)). intros b H. exact H. Qed.
Hint Resolve ok_p_body8 : okdb.

(** *** fetch.rs *)
Lemma ok_p_header_list k : ok k (v1 (v_astring lv)) p_header_list.
Proof. unfold p_header_list. oks. Qed.
Lemma ok_p_section_part k : ok k (v1 v_nz32) p_section_part.
Proof. unfold p_section_part. oks. Qed.
Hint Resolve ok_p_header_list ok_p_section_part : okdb.
Definition v_ps (p : part_specifier) : bool :=
  match p with PSHeaderFields l | PSHeaderFieldsNot l => v1 (v_astring lv) l | _ => true end.
Definition v_ps_top (p : part_specifier) : bool :=
  match p with PSMime => false | _ => v_ps p end.
Lemma ok_p_section_msgtext k : ok k v_ps_top p_section_msgtext.
Proof. unfold p_section_msgtext. oks. Qed.
Lemma ok_p_section_text k : ok k v_ps p_section_text.
Proof.
  unfold p_section_text. apply ok_alt_cons; [| oks].
  apply (ok_weaken k _ _ _ (ok_p_section_msgtext k)). now intros [].
Qed.
Hint Resolve ok_p_section_text : okdb.
Lemma ok_p_section_spec k : ok k (v_section lv) p_section_spec.
Proof.
  unfold p_section_spec. apply ok_alt_cons; [| apply ok_alt_cons; [| apply ok_alt_nil]].
  - apply (ok_expect k v_ps_top); [apply ok_p_section_msgtext |].
    intros [] H; try discriminate; eexists; (split; [reflexivity |]); cbn in *; auto.
  - eapply ok_bind; [oks |]. intros n Hn. eapply ok_bind; [oks |]. intros o Ho.
    apply ok_ret. destruct o as [[]|]; cbn in *; unfold v_part; rewrite ?Hn, ?Ho; reflexivity.
Qed.
Hint Resolve ok_p_section_spec : okdb.
Lemma ok_p_section k : ok k (vopt (v_section lv)) p_section.
Proof. unfold p_section. oks. Qed.
Lemma ok_p_section_binary k : ok k (forallb v_nz32) p_section_binary.
Proof. unfold p_section_binary. oks. Qed.
Lemma ok_p_partial k : ok k v_partial p_partial.
Proof. unfold p_partial, v_partial. oks. Qed.
Hint Resolve ok_p_section ok_p_section_binary ok_p_partial : okdb.
Lemma ok_p_fetch_att k : ok k (v_item_name lv) p_fetch_att.
Proof. unfold p_fetch_att. oks. Qed.
Lemma ok_p_msg_att_dynamic k : ok k (v_message_data_item lv) p_msg_att_dynamic.
Proof.
  unfold p_msg_att_dynamic. apply ok_alt_cons; [| oks].
  eapply ok_pmap; [oks |]. intros o H. cbn. now apply forallb_dflt1.
Qed.
Lemma ok_p_nstring8 k : ok k (v_nstring8 lv) p_nstring8.
Proof. unfold p_nstring8. oks. Qed.
Hint Resolve ok_p_fetch_att ok_p_msg_att_dynamic ok_p_nstring8 : okdb.
Lemma ok_p_msg_att_static k : ok k (v_message_data_item lv) p_msg_att_static.
Proof. unfold p_msg_att_static. oks. Qed.
Hint Resolve ok_p_msg_att_static : okdb.
Lemma ok_p_msg_att k : ok k (v1 (v_message_data_item lv)) p_msg_att.
Proof. unfold p_msg_att. oks. Qed.
Hint Resolve ok_p_msg_att : okdb.

(** *** search.rs *)
Definition v_key n x := v_search_tree lv x && Nat.leb (search_depth x) n.
Lemma ok_p_search_key k n : ok k (v_key n) (p_search_key n).
Proof.
  induction n as [| n IH]; [apply ok_pfail |]. cbn [p_search_key].
  repeat (apply ok_alt_cons; [| ]); try apply ok_alt_nil.
  all: try (eapply ok_value; [oks | reflexivity]).
  all: try (eapply ok_pmap; [solve [oks] | intros a H; unfold v_key; cbn; now rewrite H]).
  - eapply ok_bind; [oks |]. intros _ _. eapply ok_bind; [oks |]. intros _ _.
    eapply ok_bind; [oks |]. intros a Ha. eapply ok_bind; [oks |]. intros _ _.
    eapply ok_bind; [oks |]. intros b Hb. apply ok_ret. unfold v_key. cbn. now rewrite Ha, Hb.
  - eapply ok_pmap; [oks; exact IH |]. intros a H. exact H.
  - eapply ok_bind; [oks |]. intros _ _. eapply ok_bind; [oks |]. intros _ _.
    eapply ok_bind; [exact IH |]. intros a Ha. eapply ok_bind; [oks |]. intros _ _.
    eapply ok_bind; [exact IH |]. intros b Hb. apply ok_ret. unfold v_key in *.
    apply andb_true_iff in Ha as [Ha1 Ha2]. apply andb_true_iff in Hb as [Hb1 Hb2].
    cbn [v_search_tree search_depth]. rewrite Ha1, Hb1. cbn [andb].
    apply Nat.leb_le in Ha2, Hb2. apply Nat.leb_le. lia.
  - apply ok_gate. intros X. eapply ok_weaken; [now apply ok_p_search_modsequence |].
    intros a H. apply andb_true_iff in H as [H1 H2]. apply Nat.eqb_eq in H2.
    unfold v_key. now rewrite H1, H2.
  - eapply ok_pmap; [oks; exact IH |]. intros l H.
    apply andb_true_iff in H as [H1 H]. unfold v_key in H. rewrite forallb_and in H.
    apply andb_true_iff in H as [H2 H3]. unfold v_key. cbn [v_search_tree search_depth].
    rewrite H1, H2. cbn [andb]. apply Nat.leb_le, le_n_S. now apply list_max_forall.
Qed.
Lemma ok_p_search_keys k : ok k (v1 (v_search_key lv)) p_search_keys.
Proof.
  unfold p_search_keys. apply ok_vec1. eapply ok_sl1; [oks |].
  apply (ok_weaken k _ _ _ (ok_p_search_key k 9)). intros x H. exact H.
Qed.
Hint Resolve ok_p_search_keys : okdb.
Lemma ok_p_search_criteria k : ok k (vpair (v_charset) (v1 (v_search_key lv))) p_search_criteria.
Proof. unfold p_search_criteria. oks. Qed.
Lemma ok_p_search k : ok k (v_command_body lv) p_search.
Proof. unfold p_search. oks. Qed.
End OkBody.

#[export] Hint Resolve ok_p_address ok_p_addresses ok_p_envelope ok_p_body8 ok_p_section
  ok_p_section_binary ok_p_partial ok_p_fetch_att ok_p_msg_att ok_p_nstring8 ok_p_search_keys
  ok_p_search_criteria ok_p_search : okdb.

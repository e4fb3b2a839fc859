(** [ok] for the parsers of ParseResp.v. *)

From Verif Require Import Bytes BytesFacts Dec Features Nom Types Utf8 Conv Base64
  ParserFacts ParseCore ParseBody ParseCmd ParseResp Valid OkTac OkCore OkBody OkCmd.
Open Scope nat_scope.

Section OkResp.
Context {F : features}.
Notation lv := LDecoded.
Ltac nx x H := eapply ok_bind; [oks |]; intros x H.

(** *** extensions *)
Lemma ok_p_metadata_code k : ok k v_metadata_code p_metadata_code.
Proof. unfold p_metadata_code. oks. Qed.
Hint Resolve ok_p_metadata_code : okdb.
Lemma ok_p_metadata_resp k : ext_metadata = true -> ok k (v_data lv) p_metadata_resp.
Proof.
  intros X. unfold p_metadata_resp. nx x Hx. nx y Hy. nx m Hm. nx z Hz.
  apply (ok_bind k (v_metadata_response lv)); [oks |]. intros it Hit. apply ok_ret. cbn.
  now rewrite X, Hm, Hit.
Qed.
Lemma ok_p_delimiter k : ok k (vopt quoted_char_ok) p_delimiter.
Proof. unfold p_delimiter. oks. Qed.
Hint Resolve ok_p_metadata_resp ok_p_delimiter : okdb.
Lemma ok_p_namespace_ext k : ok k (v_namespace_ext lv) p_namespace_ext.
Proof. unfold p_namespace_ext. oks. apply ok_ret. unfold v_namespace_ext. okv. Qed.
Hint Resolve ok_p_namespace_ext : okdb.
Lemma ok_p_namespace_descr k : ok k (v_namespace lv) p_namespace_descr.
Proof. unfold p_namespace_descr. oks. apply ok_ret. unfold v_namespace. okv. Qed.
Hint Resolve ok_p_namespace_descr : okdb.
Lemma ok_p_namespace k : ok k (forallb (v_namespace lv)) p_namespace.
Proof.
  unfold p_namespace. apply ok_alt_cons; [oks |]. apply ok_alt_cons; [| oks]. ok_weak.
Qed.
Hint Resolve ok_p_namespace : okdb.
Lemma ok_p_namespace_response k : ext_namespace = true -> ok k (v_data lv) p_namespace_response.
Proof. intros X. unfold p_namespace_response. oks. Qed.
Lemma ok_p_quota_sp k : ok k any p_quota_sp.
Proof. unfold p_quota_sp. destruct quirk_excessive_space_quota_resource; oks. Qed.
Hint Resolve ok_p_namespace_response ok_p_quota_sp : okdb.
Lemma ok_p_quota_resource k : ok k v_quota_get p_quota_resource.
Proof. unfold p_quota_resource. oks. apply ok_ret. unfold v_quota_get. okv. Qed.
Hint Resolve ok_p_quota_resource : okdb.
Lemma ok_p_quota_response k : ok k (v_data lv) p_quota_response.
Proof. unfold p_quota_response. oks. Qed.
Lemma ok_p_quotaroot_response k : ok k (v_data lv) p_quotaroot_response.
Proof. unfold p_quotaroot_response. oks. Qed.
Hint Resolve ok_p_quota_response ok_p_quotaroot_response : okdb.

Definition v_th n t := v_thread_tree t && Nat.leb (thread_depth t) n.
Lemma ok_p_thread_list k n : ok k (v_th n) (p_thread_list n).
Proof.
  induction n as [| n IH]; [apply ok_pfail |]. cbn [p_thread_list].
  eapply ok_delimited; [oks | | oks].
  apply ok_alt_cons; [| apply ok_alt_cons; [| apply ok_alt_nil]].
  - eapply ok_bind; [oks |]. intros p Hp.
    apply (ok_bind k (vopt (v2 (v_th n)))).
    { apply ok_opt_v, ok_vec2. eapply ok_bind; [oks |]. intros _ _. apply ok_mm2, IH. }
    intros [l |] Hl; apply ok_ret; unfold v_th; cbn [v_thread_tree thread_depth].
    + cbn [vopt] in Hl. apply andb_true_iff in Hl as [H1 H]. unfold v_th in H.
      rewrite forallb_and in H. apply andb_true_iff in H as [H2 H3].
      rewrite Hp, H1, H2. cbn [andb]. apply Nat.leb_le, le_n_S. now apply list_max_forall.
    + now rewrite Hp.
  - eapply ok_pmap; [apply ok_vec2, ok_mm2, IH |]. intros l Hl.
    apply andb_true_iff in Hl as [H1 H]. unfold v_th in H.
    rewrite forallb_and in H. apply andb_true_iff in H as [H2 H3].
    unfold v_th; cbn [v_thread_tree thread_depth].
    rewrite H1, H2. cbn [andb]. apply Nat.leb_le, le_n_S. now apply list_max_forall.
Qed.
Lemma ok_p_thread_data k : ok k (v_data lv) p_thread_data.
Proof.
  unfold p_thread_data. nx x Hx. apply (ok_bind k (vopt (v1 (v_thread lv)))).
  - apply ok_opt_v. nx y Hy. apply ok_m1.
    apply (ok_weaken k _ _ _ (ok_p_thread_list k 8)). intros t H. exact H.
  - intros o Ho. apply ok_ret. cbn. now apply forallb_dflt1.
Qed.
Lemma ok_p_uid_range k : ok k v_uid_element p_uid_range.
Proof. unfold p_uid_range. oks. Qed.
Hint Resolve ok_p_thread_data ok_p_uid_range : okdb.
Lemma ok_p_uid_set k : ok k v_uid_set p_uid_set.
Proof. unfold p_uid_set, v_uid_set. oks. Qed.
Hint Resolve ok_p_uid_set : okdb.
Lemma ok_p_enable_data k : ok k (v_data lv) p_enable_data.
Proof. unfold p_enable_data. oks. Qed.

(** *** mailbox.rs *)
Lemma ok_p_mailbox_list k :
  ok k (fun t => forallb v_flag_name (fst (fst t)) && vopt quoted_char_ok (snd (fst t))
                 && v_mailbox lv (snd t)) p_mailbox_list.
Proof.
  unfold p_mailbox_list. nx fl Hfl. nx x Hx. nx d Hd. nx y Hy. nx m Hm. apply ok_ret.
  cbn [fst snd]. rewrite Hd, Hm, !andb_true_r. now apply forallb_dflt1.
Qed.
Lemma ok_p_nums k : ok k (forallb v_nz32) p_nums.
Proof. unfold p_nums. oks. Qed.
Definition v_modseq (ms : option N) : bool :=
  match ms with Some n => ext_condstore_qresync && v_nz64 n | None => true end.
Lemma ok_p_opt_modseq k : ok k v_modseq p_opt_modseq.
Proof.
  unfold p_opt_modseq, v_modseq. destruct ext_condstore_qresync; [| now apply ok_ret].
  cbn [andb]. change (ok k (vopt v_nz64) (opt (char bSP;;; p_search_sort_mod_seq))). oks.
Qed.
Lemma ok_p_opt_sp k b : ok k any (p_opt_sp b).
Proof. unfold p_opt_sp. destruct b; oks. Qed.
Hint Resolve ok_p_mailbox_list ok_p_nums ok_p_opt_modseq ok_p_opt_sp : okdb.
Lemma ok_p_mailbox_data k : ok k (v_data lv) p_mailbox_data.
Proof.
  unfold p_mailbox_data. repeat (apply ok_alt_cons; [| ]); try apply ok_alt_nil.
  all: try solve [oks].
  - nx x Hx. nx t Ht. destruct t as [[fl d] m]. cbn [fst snd] in Ht.
    apply ok_ret. exact Ht.
  - nx x Hx. nx t Ht. destruct t as [[fl d] m]. cbn [fst snd] in Ht.
    apply ok_ret. exact Ht.
Qed.

(** *** response.rs *)
Lemma split_once_suffix p s l r : split_once p s = Some (l, r) -> exists l', s = l' ++ r.
Proof.
  revert l r. induction s as [| x s IH]; cbn; intros l r.
  - destruct (starts_with p []); [| discriminate]. intros [= _ <-]. exists [].
    now rewrite skipn_nil.
  - destruct (starts_with p (x :: s)).
    + intros [= _ <-]. exists (firstn (length p) (x :: s)). symmetry. apply firstn_skipn.
    + destruct (split_once p s) as [[l' r'] |]; [| discriminate]. intros [= _ <-].
      destruct (IH _ _ eq_refl) as [l'' ->]. now exists (x :: l'').
Qed.
Lemma lowers_suffix a b c : lowers a = b ++ c -> lowers c = c.
Proof.
  intros H. pose proof (lowers_idem a) as E. rewrite H in E. unfold lowers in E.
  rewrite map_app in E. apply (f_equal (skipn (length b))) in E.
  rewrite !skipn_app, !map_length, Nat.sub_diag, (skipn_all2 b), (skipn_all2 (map lower b)) in E
    by (rewrite ?map_length; lia).
  exact E.
Qed.
Lemma resource_from_other a b : resource_from a = ROther b -> a = b.
Proof.
  unfold resource_from. repeat match goal with |- context [if ?c then _ else _] => destruct c end;
    congruence.
Qed.
Lemma capability_eq_ok a c : capability_eq a = Some c -> v_capability lv c = true.
Proof.
  unfold capability_eq. destruct (split_once1 "="%byte a) as [[lhs rhs] |]; [| discriminate].
  repeat match goal with |- context [if beqs ?x ?y then _ else _] => destruct (beqs x y) end.
  - destruct (atom_ok rhs) eqn:E; [| discriminate]. intros [= <-]. cbn.
    now apply auth_mechanism_from_ok.
  - destruct (atom_ok rhs) eqn:E; [| discriminate].
    unfold compression_try_from, option_map. 
    match goal with |- context [if ?c then _ else _] => destruct c end; [| discriminate].
    now intros [= <-].
  - destruct (split_once (bs "res-") (lowers rhs)) as [[l r] |] eqn:E; [| discriminate].
    destruct (atom_ok r) eqn:A; [| discriminate]. intros [= <-]. cbn [v_capability].
    rewrite resource_from_ok by exact A. cbn [andb].
    destruct (resource_from r) eqn:R; try reflexivity. apply resource_from_other in R as <-.
    apply split_once_suffix in E as [l' E]. apply lowers_suffix in E.
    cbn [only_rt]. rewrite E. apply beqs_refl.
  - destruct (atom_ok rhs) eqn:E; [| discriminate]. intros [= <-]. cbn.
    now apply sort_algorithm_from_ok.
  - destruct (atom_ok rhs) eqn:E; [| discriminate]. intros [= <-]. cbn.
    now apply threading_algorithm_from_ok.
  - discriminate.
Qed.
Lemma capability_from_ok a : atom_ok a = true -> v_capability lv (capability_from a) = true.
Proof.
  intros H. pose proof (eq_refl (capability_from a)) as E.
  unfold capability_from at 2 in E. cbv zeta in E.
  repeat match type of E with context [if ?c then _ else _] =>
    let X := fresh "X" in destruct c eqn:X;
    [rewrite E; cbn; try reflexivity; apply andb_true_iff in X as [X _]; exact X |] end.
  destruct (capability_eq a) as [c |] eqn:C; rewrite E.
  - now apply (capability_eq_ok a).
  - cbn. rewrite H, E. reflexivity.
Qed.
Lemma ok_p_capability k : ok k (v_capability lv) p_capability.
Proof. unfold p_capability. eapply ok_pmap; [oks |]. apply capability_from_ok. Qed.
Hint Resolve ok_p_capability : okdb.
Lemma ok_p_capability_data k : ok k (v1 (v_capability lv)) p_capability_data.
Proof. unfold p_capability_data. oks. Qed.
Hint Resolve ok_p_capability_data : okdb.

(** The codes other than [Code::Other]: valid for whatever [other] and text. *)
Definition v_known (c : code) : bool :=
  match c with CdOther _ => false | _ => v_code lv (fun _ _ => true) c [] end.
Lemma ok_p_resp_text_code k : ok k v_known p_resp_text_code.
Proof.
  unfold p_resp_text_code, p_resp_code_apnd, p_resp_code_copy.
  repeat (apply ok_alt_cons; [| ]); try apply ok_alt_nil. all: try solve [oks].
Qed.
Lemma v_known_code other c t : v_known c = true -> v_code lv other c t = true.
Proof. destruct c; try discriminate; cbn; auto. Qed.

Lemma ok_p_text_after_code k : ok k text_ok p_text_after_code.
Proof.
  unfold p_text_after_code. destruct quirk_missing_text; [| oks].
  apply ok_alt_cons; [oks |]. apply ok_alt_cons; [| oks].
  apply (ok_expect k (fun s => beqs s (bs "..."))).
  - eapply ok_value; [oks | reflexivity].
  - intros a H. apply beqs_eq in H as ->. eexists. split; [vm_compute; reflexivity |].
    reflexivity.
Qed.

(** [p_resp_text] by its first byte *)
Definition p_resp_coded : parser (option code * bytes) :=
  tg "[" ;;; c <- alt [terminated p_resp_text_code (tg "]"); p_code_other] ;;
  t <- p_text_after_code ;; ret (Some c, t).
Definition p_resp_plain : parser (option code * bytes) := pmap (fun t => (None, t)) p_text.
Lemma p_resp_text_eq i : p_resp_text i =
  match i with
  | x :: _ => if beq x "["%byte then p_resp_coded i else p_resp_plain i
  | [] => RInc
  end.
Proof.
  destruct i as [| x i]; [reflexivity |]. unfold p_resp_text, opt.
  change (tag (bs "[") (x :: i)) with (if beq x "["%byte then tag [] i else RErr).
  destruct (beq x "["%byte); reflexivity.
Qed.
Lemma ok_cases {A} k (v : A -> bool) (p q : parser A) (f : byte -> bool) : ok k v p ->
  ok k v q ->
  ok k v (fun i => match i with x :: _ => if f x then p i else q i | [] => RInc end).
Proof.
  intros Hp Hq [| x i] L; [exact I |]. unfold ok_at. cbn [app].
  destruct (f x); [exact (Hp _ L) | exact (Hq _ L)].
Qed.
Lemma ok_p_resp_text_any k : ok k any p_resp_text.
Proof.
  eapply ok_eq; [eapply (ok_cases k any _ _ (fun x => beq x "["%byte)) |
    intros i _; symmetry; apply p_resp_text_eq].
  - unfold p_resp_coded. nx x Hx. apply (ok_bind k any).
    + apply ok_alt_cons.
      * eapply ok_weaken; [eapply ok_terminated; [apply ok_p_resp_text_code | oks] | okv].
      * apply ok_alt_cons; [| oks]. unfold p_code_other. eapply (ok_pmap k any); [| okv].
        eapply ok_terminated; [now apply ok_take_while | oks].
    + intros c _. eapply ok_bind; [apply ok_p_text_after_code |]. intros t _. now apply ok_ret.
  - unfold p_resp_plain. eapply ok_pmap; [oks |]. okv.
Qed.
Lemma p_text_inv i r t : p_text i = ROk r t ->
  i = t ++ r /\ t <> [] /\ forallb is_text_char t = true /\
  exists x r', r = x :: r' /\ is_text_char x = false.
Proof.
  unfold p_text, validated, expect, pmap, bind. intros H.
  destruct (take_while1 is_text_char i) as [r1 s | | | |] eqn:E; try discriminate.
  apply take_while1_inv in E. unfold str_of in H.
  destruct (utf8_ok s); [| discriminate]. destruct (text_ok s); [| discriminate].
  inv H. exact E.
Qed.

(** What the decoder knows about a [Code::Other] *)
Variable other : bytes -> bytes -> bool.
Definition other_decoded : Prop := forall i r c t,
  p_resp_text i = ROk r (Some (CdOther c), t) -> other c t = true.
Hypothesis Hother : other_decoded.
Definition v_ct (ct : option code * bytes) : bool := v_code_text lv other (fst ct) (snd ct).

Lemma ok_p_resp_text k : ok k v_ct p_resp_text.
Proof.
  eapply ok_post_intro; [apply ok_p_resp_text_any |]. intros i r [c t] L E.
  pose proof E as E0. rewrite p_resp_text_eq in E. destruct i as [| x i]; [discriminate |].
  destruct (beq_spec x "["%byte) as [-> | N].
  - unfold p_resp_coded in E. apply bind_inv in E as (r1 & u & E1 & E).
    apply tag_inv in E1. inv E1.
    apply bind_inv in E as (r2 & c' & E1 & E). apply bind_inv in E as (r3 & t' & E2 & E). inv E.
    cbn [length] in L. assert (Lr : length r1 < k) by lia.
    assert (Lr2 : length r2 < k).
    { cbn [alt] in E1. apply orp_inv in E1 as [E1 | [_ E1]].
      - assert (K : ok k v_known (terminated p_resp_text_code (tg "]")))
          by (eapply ok_terminated; [apply ok_p_resp_text_code | oks]).
        pose proof (ok_len K _ _ _ Lr E1). lia.
      - assert (K : ok k any p_code_other).
        { unfold p_code_other. eapply (ok_pmap k any); [| okv].
          eapply ok_terminated; [now apply ok_take_while | oks]. }
        pose proof (ok_len K _ _ _ Lr E1). lia. }
    pose proof (ok_post (ok_p_text_after_code k) _ _ _ Lr2 E2) as Ht.
    unfold v_ct, v_code_text. cbn [fst snd]. rewrite Ht. cbn [andb].
    cbn [alt] in E1. apply orp_inv in E1 as [E1 | [_ E1]].
    + apply v_known_code.
      assert (K : ok k v_known (terminated p_resp_text_code (tg "]")))
        by (eapply ok_terminated; [apply ok_p_resp_text_code | oks]).
      exact (ok_post K _ _ _ Lr E1).
    + unfold p_code_other in E1. apply pmap_inv in E1 as (b & _ & ->). cbn.
      apply (Hother _ _ _ _ E0).
  - unfold p_resp_plain in E. apply pmap_inv in E as (s & E & [= -> ->]).
    unfold v_ct, v_code_text. cbn [fst snd].
    rewrite (ok_post (ok_p_text k) _ _ _ L E). cbn [andb only_rt].
    apply p_text_inv in E as (E & Hn & _). destruct s as [| y s]; [easy |].
    cbn in E. injection E as -> _.
    change (negb (beq "["%byte y && true) = true). rewrite beq_sym.
    destruct (beq_spec y "["%byte); easy.
Qed.
Hint Resolve ok_p_resp_text : okdb.

Lemma ok_p_resp_cond_auth k :
  ok k (fun x => v_ct (snd x)) p_resp_cond_auth.
Proof.
  unfold p_resp_cond_auth. apply (ok_bind k any); [oks |]. intros x _. nx t Ht.
  now apply ok_ret.
Qed.
Lemma ok_p_resp_cond_bye k : ok k v_ct p_resp_cond_bye.
Proof. unfold p_resp_cond_bye. oks. Qed.
Hint Resolve ok_p_resp_cond_auth ok_p_resp_cond_bye : okdb.
Lemma ok_p_greeting k : ok k (v_greeting lv other) p_greeting.
Proof.
  unfold p_greeting. apply (ok_bind k (fun x : greeting_kind * (option code * bytes) => v_ct (snd x))).
  - eapply ok_delimited; [oks | | oks]. apply ok_alt_cons; [oks |].
    apply ok_alt_cons; [| oks]. eapply ok_pmap; [oks |]. intros a H. exact H.
  - intros [g [c t]] H. apply ok_ret. exact H.
Qed.

Lemma ok_p_empty_continue_req k : ok k (v_continuation lv other) p_empty_continue_req.
Proof.
  unfold p_empty_continue_req.
  apply (ok_expect k (fun ct => match ct with (None, t) => beqs t (bs "...") | _ => false end)).
  - eapply ok_value; [oks |]. reflexivity.
  - intros [[c |] t] H; [discriminate |]. apply beqs_eq in H as ->.
    exists (CRBasic None (bs "...")).
    assert (E : b64_decode (bs "...") = None) by (vm_compute; reflexivity).
    assert (E' : text_ok (bs "...") = true) by (vm_compute; reflexivity).
    assert (E'' : starts_with (bs "[") (bs "...") = false) by (vm_compute; reflexivity).
    unfold basic_of. cbn [v_continuation]. rewrite E, E', E''. now split.
Qed.

Lemma text_no_crlf b : is_text_char b = true -> beq b bCR = false /\ beq b bLF = false.
Proof.
  intros H.
  pose proof (byte_impl (is_text_char) (fun b => negb (beq b bCR) && negb (beq b bLF)) eq_refl b H) as K.
  cbv beta in K. now destruct (beq b bCR), (beq b bLF).
Qed.
Lemma find2_text t r : forallb is_text_char t = true ->
  find2 bCR bLF (t ++ bCR :: bLF :: r) = Some (t, bCR :: bLF :: r).
Proof.
  induction t as [| x t IH]; intros H; [reflexivity |].
  cbn [forallb] in H. apply andb_true_iff in H as [Hx H]. specialize (IH H).
  destruct (t ++ bCR :: bLF :: r) as [| y l] eqn:E; [now destruct t |].
  change ((x :: t) ++ bCR :: bLF :: r) with (x :: (t ++ bCR :: bLF :: r)). rewrite E, find2_step.
  destruct (text_no_crlf _ Hx) as [-> _]. cbn [andb]. now rewrite IH.
Qed.
Lemma take_while_read f t x r : forallb f t = true -> f x = false ->
  take_while f (t ++ x :: r) = ROk (x :: r) t.
Proof.
  intros H Hx. unfold take_while.
  assert (E : span f (t ++ x :: r) = Some (t, x :: r)).
  { revert H. induction t as [| y t IH]; cbn; intros H; [now rewrite Hx |].
    apply andb_true_iff in H as [-> H]. now rewrite (IH H). }
  now rewrite E.
Qed.
Lemma p_until_crlf_text t eol r : forallb is_text_char t = true ->
  eol = [bCR; bLF] \/ quirk_crlf_relaxed = true /\ eol = [bLF] ->
  exists r', p_until_crlf (t ++ eol ++ r) = ROk r' t.
Proof.
  intros Ht He. unfold p_until_crlf.
  assert (Hn : forallb (fun b => negb (beq b bLF)) t = true).
  { apply (forallb_impl is_text_char); [| exact Ht]. intros b Hb.
    now destruct (text_no_crlf _ Hb) as [_ ->]. }
  destruct quirk_crlf_relaxed eqn:Q.
  - unfold pmap, bind. destruct He as [-> | [_ ->]].
    + change (t ++ [bCR; bLF] ++ r) with (t ++ [bCR] ++ bLF :: r). rewrite app_assoc.
      rewrite take_while_read; [| | reflexivity].
      2:{ rewrite forallb_app, Hn. reflexivity. }
      exists (bLF :: r). unfold ret. f_equal. unfold strip_cr. rewrite rev_app_distr. cbn.
      now rewrite rev_involutive.
    + change (t ++ [bLF] ++ r) with (t ++ bLF :: r). rewrite take_while_read by (auto; reflexivity).
      exists (bLF :: r). unfold ret. f_equal. unfold strip_cr.
      destruct (rev t) as [| c l] eqn:R; [reflexivity |].
      assert (In c t) by (apply in_rev; rewrite R; now left).
      rewrite forallb_forall in Ht. now destruct (text_no_crlf _ (Ht _ H)) as [-> _].
  - destruct He as [-> | [? _]]; [| discriminate]. unfold take_until2.
    change (t ++ [bCR; bLF] ++ r) with (t ++ bCR :: bLF :: r). rewrite find2_text by exact Ht.
    eauto.
Qed.

Definition v_either (e : bytes + option code * bytes) : bool :=
  match e with
  | inl _ => true
  | inr (None, t) => v_ct (None, t) && negb (is_some (b64_decode t))
  | inr ct => v_ct ct
  end.
Lemma ok_p_continue_req k : ok k (v_continuation lv other) p_continue_req.
Proof.
  unfold p_continue_req. apply (ok_expect k v_either).
  - set (q := alt _).
    assert (Hq : ok k (fun e => match e with inl _ => true | inr ct => v_ct ct end) q).
    { subst q. apply ok_alt_cons; [| apply ok_alt_cons; [| oks]].
      - eapply (ok_pmap k any); [| okv]. eapply (ok_map_res k any); [| okv].
        unfold p_until_crlf. destruct quirk_crlf_relaxed.
        + eapply (ok_pmap k any); [now apply ok_take_while | okv].
        + now apply ok_take_until2.
      - eapply ok_pmap; [oks |]. intros a H. exact H. }
    eapply ok_post_intro.
    { eapply ok_bind; [oks |]. intros _ _. eapply ok_bind; [exact Hq |]. intros e He.
      eapply ok_bind; [oks |]. intros _ _. apply ok_ret. exact He. }
    intros i r e L E. apply bind_inv in E as (r1 & u & E1 & E).
    apply tag_inv in E1. assert (L1 : length r1 < k).
    { rewrite E1, app_length in L. lia. }
    apply bind_inv in E as (r2 & e0 & E2 & E). apply bind_inv in E as (r3 & u' & E3 & E). inv E.
    pose proof (ok_post Hq _ _ _ L1 E2) as V. cbv beta in V.
    destruct e as [d | [[c |] t]]; try exact V. cbn [v_either]. rewrite V. cbn [andb].
    subst q. cbn [alt] in E2. apply orp_inv in E2 as [E2 | [E2 E4]].
    { apply pmap_inv in E2 as (? & _ & ?). discriminate. }
    apply pmap_inv in E4 as (ct & E4 & [= <-]).
    rewrite p_resp_text_eq in E4. destruct r1 as [| x r1]; [discriminate |].
    destruct (beq x "["%byte).
    { unfold p_resp_coded in E4. apply bind_inv in E4 as (? & ? & _ & E4).
      apply bind_inv in E4 as (? & ? & _ & E4). apply bind_inv in E4 as (? & ? & _ & E4). inv E4. }
    unfold p_resp_plain in E4. apply pmap_inv in E4 as (s & E4 & [= <-]).
    apply p_text_inv in E4 as (E4 & _ & Ht & _). apply crlf_inv in E3 as (eol & -> & He).
    destruct (p_until_crlf_text t eol r Ht He) as [r' E5].
    rewrite E4 in E2. unfold pmap, map_res, bind in E2. rewrite E5 in E2.
    destruct (b64_decode t); [discriminate | reflexivity].
  - intros [d | [[c |] t]] H.
    + eexists. split; reflexivity.
    + eexists. split; [reflexivity |]. cbn in *. unfold v_ct, v_code_text in H. cbn in H. exact H.
    + cbn [v_either] in H. apply andb_true_iff in H as [H1 H2].
      unfold v_ct, v_code_text in H1. cbn [fst snd only_rt] in H1.
      apply andb_true_iff in H1 as [H0 H1]. unfold basic_of.
      apply negb_true_iff in H1, H2. rewrite H1, H2. eexists. split; [reflexivity |].
      cbn [v_continuation]. rewrite H0, H1. cbn [negb andb].
      destruct (b64_decode t); [discriminate | reflexivity].
Qed.

Lemma ok_p_resp_cond_state k : ok k (v_status_body lv other) p_resp_cond_state.
Proof.
  unfold p_resp_cond_state. apply (ok_bind k any); [oks |]. intros x _.
  eapply ok_bind; [apply ok_p_resp_text |]. intros [c t] H. apply ok_ret. exact H.
Qed.
Lemma ok_p_message_data k : ok k (v_data lv) p_message_data.
Proof.
  unfold p_message_data. apply ok_alt_cons; [| oks]. nx s Hs. apply ok_alt_cons; oks.
Qed.
Hint Resolve ok_p_resp_cond_state ok_p_message_data ok_p_mailbox_data ok_p_enable_data
  ok_p_continue_req ok_p_empty_continue_req : okdb.
Lemma ok_p_response_data k : ok k (v_response lv other) p_response_data.
Proof.
  unfold p_response_data. eapply ok_delimited; [oks | | oks].
  repeat (apply ok_alt_cons; [| ]); try apply ok_alt_nil; try solve [oks].
Qed.
Lemma ok_p_response_done k : ok k (v_status lv other) p_response_done.
Proof.
  unfold p_response_done, p_response_tagged, p_response_fatal.
  apply ok_alt_cons; [oks |]. apply ok_alt_cons; [| oks].
  eapply ok_bind; [oks |]. intros [c t] H. apply ok_ret. exact H.
Qed.
Hint Resolve ok_p_response_data ok_p_response_done : okdb.
Lemma ok_p_response k : ok k (v_response lv other) p_response.
Proof.
  unfold p_response. oks.
Qed.
End OkResp.

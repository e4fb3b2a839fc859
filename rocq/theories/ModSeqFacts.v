(** A FETCH response with a MODSEQ item, as it is written, is not read. *)

From Verif Require Import Bytes Dec Features Nom Types Utf8 Conv SeqSet Base64 Date ParseCore ParseBody
  ParseCmd ParseResp EncodeCtx Encode Valid BytesFacts EncodeFacts ParserFacts QuotedFacts OkTac OkCore OkBody
  OkCmd OkResp ValidFacts RtFacts RtTac RtCore RtBody RtCmd RtResp RoundTripSpec WrittenFacts.
Open Scope nat_scope.

Section ModSeq.
Context {F : features}.

Lemma Rj_sep_loop_bind {A T C} (p : parser A) (sep : parser C) (so : bytes) c (e : A -> list op) l :
  forall (q : list A -> parser T) o fe f,
  so <> [] -> P sep (W so) c any -> fe (hd_error so) = true ->
  (forall i r a, sep i = ROk r a -> length r < length i) ->
  (forall x, In x l -> P p (e x) x fe) ->
  leads fe o f -> Rj (bind sep (fun _ => p)) o f -> Rj (q l) o f ->
  Rj (bind (sep_loop sep p) q) (flat_map (fun x => W so ++ e x) l ++ o) f.
Proof.
  intros q o fe f Nso Ps Fs Hc He L R H.
  assert (St : forall (q : list A -> parser T) i, bind sep (fun _ => p) i = RErr ->
            bind (sep_loop sep p) q i = q [] i).
  { intros q' i. unfold bind, sep_loop. cbn [sep_loop_f]. specialize (Hc i).
    destruct (sep i) as [r a| | | |]; try discriminate; intros E; [| reflexivity].
    specialize (Hc _ _ eq_refl). apply Nat.ltb_lt in Hc. rewrite Hc, E. reflexivity. }
  assert (Fl : forall (q : list A -> parser T) i x, bind sep (fun _ => p) i = RFail x ->
            bind (sep_loop sep p) q i = RFail x).
  { intros q' i x. unfold bind, sep_loop. cbn [sep_loop_f]. specialize (Hc i).
    destruct (sep i) as [r a| | | |]; try discriminate; intros E.
    - specialize (Hc _ _ eq_refl). apply Nat.ltb_lt in Hc. rewrite Hc, E. reflexivity.
    - injection E as ->. reflexivity. }
  revert q o f L R H. induction l as [|x l IH]; intros q o f L R H; cbn [flat_map].
  - destruct R as [r1 r2], H as [H1 H2]. cbn [app]. split; intros.
    + rewrite St by auto. auto.
    + destruct (r2 _ _ _ _ _ H) as [E|E].
      * rewrite St by exact E. eauto.
      * right. apply Fl, E.
  - destruct (He x (or_introl eq_refl)) as [p1 p2].
    assert (He' : forall x, In x l -> P p (e x) x fe) by (intros; apply He; now right).
    destruct (IH He' (fun l => q (x :: l)) o f L R H) as [h1 h2].
    destruct Ps as [s1 s2].
    assert (L' : leads fe (flat_map (fun x => W so ++ e x) l ++ o) f).
    { destruct l as [|y l]; [exact L|]. cbn [flat_map]. destruct so; [congruence|]. exact Fs. }
    rewrite <- !app_assoc.
    assert (LL : forall s, length s < length (so ++ s)).
    { intros s. rewrite app_length. destruct so; [congruence|]. cbn. lia. }
    assert (K : forall s, sep (so ++ s) = ROk s c).
    { intros s. specialize (s1 s eq_refl). rewrite dump_W in s1. exact s1. }
    split.
    + intros s Hs. rewrite dump_app, dump_W, <- app_assoc, dump_app, <- app_assoc.
      erewrite sep_loop_more; [| apply K | apply LL | apply p1; eapply leads_full; eassumption
        | rewrite (app_length (dump (e x))); lia].
      apply h1, Hs.
    + intros pre is8 m d post E.
      destruct (cut_app _ _ _ _ _ _ _ E) as [[post' E']|[pre1 [-> E1]]].
      { destruct (noLit_cut _ _ _ _ _ _ (noLit_W so) E'). }
      unfold upto_lit. rewrite dump_app, dump_W, <- app_assoc.
      destruct (cut_app _ _ _ _ _ _ _ E1) as [[post' E']|[pre' [-> E']]].
      * right. eapply sep_loop_fail2; [apply K | apply LL | eapply p2, E'].
      * rewrite dump_app, <- app_assoc. change (dump pre' ++ _) with (upto_lit pre' is8 m d).
        erewrite sep_loop_more; [| apply K | apply LL | apply p1; eapply leads_cut; eassumption
          | rewrite (app_length (dump (e x))); lia].
        eapply h2, E'.
Qed.

Definition p_item : parser message_data_item := alt [p_msg_att_dynamic; p_msg_att_static].
Lemma Rj_item n o f : Rj p_item (e_message_data_item (MDModSeq n) ++ o) f.
Proof. unfold p_item, p_msg_att_dynamic, p_msg_att_static. cbn [e_message_data_item]. nrm. rj. Qed.
Lemma Rj_msg_att l1 n l2 : Forall (fun i => v_message_data_item LExact i = true) l1 ->
  Rj p_msg_att (paren (joinsp e_message_data_item (l1 ++ MDModSeq n :: l2))) any.
Proof.
  intros V. rewrite Forall_forall in V. unfold p_msg_att. change (alt [p_msg_att_dynamic; p_msg_att_static]) with p_item.
  unfold paren, delimited. apply (Rj_tgq (T := list message_data_item) _ (bs "(")) with (1 := eq_refl).
  unfold vec1, vecn, expect, sep_list1. apply Rj_assoc, Rj_assoc.
  destruct l1 as [| x l1]; cbn [app]; unfold joinsp; rewrite join_cons, <- app_assoc.
  { apply Rj_bind, Rj_item. }
  eapply Rj_seq with (f1 := dl) (v := x).
  - apply P_p_msg_att_item. apply V. now left.
  - destruct l1; reflexivity.
  - apply Rj_assoc. rewrite flat_map_app. cbn [flat_map]. rewrite <- app_assoc.
    eapply (Rj_sep_loop_bind p_item sp [bSP] bSP) with (fe := dl).
    + discriminate.
    + apply P_sp.
    + reflexivity.
    + exact sp_len.
    + intros y Hy. apply P_p_msg_att_item. apply V. now right.
    + reflexivity.
    + rewrite <- !app_assoc. unfold spc at 1. cbn [app]. apply Rj_char_eat. apply Rj_item.
    + apply Rj_retb. cbn [length Nat.leb]. apply Rj_retb. apply Rj_bind. unfold spc at 1. rewrite <- !app_assoc. cbn [app].
      apply Rj_tg. reflexivity.
Qed.
Lemma Rj_app {A} (p : parser A) o1 o2 f1 f : Rj p o1 f1 -> leads f1 o2 f -> Rj p (o1 ++ o2) f.
Proof.
  intros [H1 H2] L. split.
  - intros s Hs. rewrite dump_app, <- app_assoc. apply H1. eapply leads_full; eassumption.
  - intros pre is8 m d post H. destruct (cut_app _ _ _ _ _ _ _ H) as [[post' E]|[pre' [-> E]]].
    + eapply H2, E.
    + left. unfold upto_lit. rewrite dump_app, <- app_assoc. apply H1.
      change (dump pre' ++ _) with (upto_lit pre' is8 m d). eapply leads_cut; eassumption.
Qed.
Lemma Rj_response n0 l1 n l2 : v_nz32 n0 = true -> Forall (fun i => v_message_data_item LExact i = true) l1 ->
  Rj p_response (e_response (RData (DFetch n0 (l1 ++ MDModSeq n :: l2)))) any.
Proof.
  intros Vn V. cbn [e_response]. unfold p_response. rewrite e_data_db. cbn [db].
  assert (K : Rj p_resp_alts (e_num n0 ++ W (bs " FETCH ") ++ paren (joinsp e_message_data_item (l1 ++ MDModSeq n :: l2))) eol).
  { unfold p_resp_alts.
    apply Rj_alt_cons; [apply Rj_bind; unfold p_resp_cond_state; apply Rj_bind; nrm; rj |].
    apply Rj_alt_cons; [nrm; rj |].
    apply Rj_alt_cons; [apply Rj_bind; apply Rj_mbd_num; [now apply nz_u32 | reflexivity | nrm; rj | nrm; rj] |].
    apply Rj_alt_cons.
    { apply Rj_bind. unfold p_message_data. apply Rj_alt_cons; [| apply Rj_alt_cons; [rj | apply Rj_alt_nil]].
      unfold terminated. apply Rj_assoc.
      eapply Rj_seq with (f1 := nd); [now apply P_p_nz_number | reflexivity |].
      apply Rj_assoc. cbn [bs W map app]. apply Rj_char_eat. apply Rj_retb.
      apply Rj_alt_cons; [rj |]. apply Rj_alt_cons; [| apply Rj_alt_nil]. apply Rj_bind.
      match goal with |- Rj _ (?a :: ?b :: ?c :: ?d :: ?e :: ?g :: ?o) _ =>
        change (a :: b :: c :: d :: e :: g :: o) with (W (bs "FETCH ") ++ o) end.
      eapply Rj_weak; [| apply (Rj_kwq (T := list message_data_item) _ (bs "FETCH ")) with (1 := eq_refl); apply (Rj_msg_att l1 n l2 V)].
      reflexivity. }
    repeat (apply Rj_alt_cons; [nrm; rj |]). apply Rj_alt_nil. }
  apply Rj_alt_cons; [cbn [bs W map app]; rj |]. apply Rj_alt_cons; [cbn [bs W map app]; rj |].
  apply Rj_alt_cons; [| apply Rj_alt_cons; [| apply Rj_alt_nil]].
  - unfold p_response_data, delimited. apply (Rj_tgq (T := response) _ (bs "* ")) with (1 := eq_refl).
    apply Rj_bind. fold p_resp_alts. eapply Rj_app; [exact K | reflexivity].
  - apply Rj_bind. unfold p_response_done. cbn [bs W map app]. rj.
Qed.
End ModSeq.

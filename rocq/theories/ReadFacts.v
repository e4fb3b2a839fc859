(** Decoding input that the encoder would write differently: other spellings of INBOX, digit
    strings with leading zeros, numbers that are too large. *)

From Verif Require Import Bytes Dec Features Nom Types Utf8 Conv SeqSet Base64 Date ParseCore ParseBody
  ParseCmd ParseResp Decode EncodeCtx Encode Valid BytesFacts EncodeFacts ParserFacts QuotedFacts OkTac OkCore OkBody
  ValidFacts RtFacts RtTac RtCore RtBody RtCmd RtResp Ctors ValueSpec ValueFacts.
Open Scope nat_scope.

Section Read.
Context {F : features}.

(** ** INBOX *)
Lemma P_mailbox_any a m : v_astring LExact a = true -> mailbox_from a = Some m ->
  P p_mailbox (e_astring a) m nas.
Proof. intros V E. unfold p_mailbox. eapply P_expect; [exact E | now apply P_p_astring]. Qed.
Notation cmds := (alt [p_command_any; p_command_auth; p_command_nonauth; p_command_select]).
Lemma P_select_any a m : v_astring LExact a = true -> mailbox_from a = Some m ->
  P cmds (W (bs "SELECT ") ++ e_astring a) (CSelect m []) eol.
Proof.
  intros V E. nrm. apply P_alt_skip; [rj |]. apply P_alt_here. unfold p_command_auth.
  repeat (apply P_alt_skip; [solve [rj] |]). apply P_alt_here. unfold p_select.
  change (P (kw "SELECT " ;;; m <- p_mailbox ;; ps <- p_select_params ;; ret (CSelect m ps))
    (W (bs "SELECT ") ++ e_astring a) (CSelect m []) eol).
  eapply P_kw; [reflexivity |].
  eapply P_bindl; [eapply P_mailbox_any; eassumption | ld |].
  apply (P_select_params_eol (fun ps => ret (CSelect m ps)) []); [unfold v_gated; now destruct ext_condstore_qresync | apply P_ret].
Qed.
Lemma command_line t o c r : tag_ok t = true -> P cmds o c eol ->
  decode_command (t ++ bSP :: dump o ++ bCR :: bLF :: r) = Decoded r (mkCommand t c).
Proof.
  intros Ht Hc. unfold decode_command, p_command.
  assert (T : P (terminated p_tag_imap sp) (W t ++ [B bSP]) t any).
  { unfold terminated. eapply P_bind; [now apply P_p_tag | reflexivity |]. rt. }
  assert (C : P p_command_body (o ++ [B bCR; B bLF]) c any).
  { unfold p_command_body, terminated. eapply P_bind; [exact Hc | reflexivity |]. rt. }
  replace (t ++ bSP :: dump o ++ bCR :: bLF :: r) with
    (dump (W t ++ [B bSP]) ++ dump (o ++ [B bCR; B bLF]) ++ r)
    by (rewrite !dump_app, dump_W, <- !app_assoc; reflexivity).
  unfold bind at 1. rewrite (P_full _ _ _ _ T) by reflexivity.
  unfold pmap, bind. now rewrite (P_full _ _ _ _ C) by reflexivity.
Qed.

(** ** Numbers *)
Lemma P_digits max d n : d <> [] -> digits d n -> (n <= max)%N -> P (p_digits max) (W d) n nd.
Proof.
  intros N D L. apply digits_spec in D as [D E].
  apply (P_map_res _ _ _ d).
  - unfold parse_max. rewrite undec_digits, E by assumption. apply N.leb_le in L. now rewrite L.
  - apply (P_expect _ _ _ d); [now rewrite digits_utf8 | now apply P_take_while1].
Qed.
Lemma Rj_digits max d n : digits d n -> d <> [] -> (max < n)%N -> Rj (p_digits max) (W d) nd.
Proof.
  intros D N L. apply digits_spec in D as [D E].
  unfold p_digits, map_res. eapply Rj_seql with (v := d) (f1 := nd); [| ld |].
  - apply (P_expect _ _ _ d); [now rewrite digits_utf8 | now apply P_take_while1].
  - cbv beta. unfold parse_max. rewrite undec_digits, E by assumption.
    apply N.leb_gt in L. rewrite L. apply Rj_perr.
Qed.
Lemma P_nz d n : d <> [] -> digits d n -> (0 < n <= u32_max)%N -> P p_nz_number (W d) n nd.
Proof.
  intros N D L. apply (P_map_res _ _ _ n); [| apply P_digits; auto; lia].
  unfold nonzero. destruct (N.eqb_spec n 0); [lia | reflexivity].
Qed.
Lemma Rj_nz d n : d <> [] -> digits d n -> (n = 0 \/ u32_max < n)%N -> Rj p_nz_number (W d) nd.
Proof.
  intros N D [-> | L]; [| now apply Rj_bind, (Rj_digits _ _ n)].
  unfold p_nz_number, map_res. eapply Rj_seql with (v := 0%N) (f1 := nd); [| ld | apply Rj_perr].
  apply P_digits; auto. discriminate.
Qed.
Lemma L_digits d n : d <> [] -> digits d n -> lead1 (on is_digit) (W d).
Proof. intros N D. apply digits_spec in D as [D _]. now apply lead1_Wall. Qed.

Lemma response_line o m r : P p_response (W (bs "* ") ++ o ++ [B bCR; B bLF]) m any ->
  decode_response (bs "* " ++ dump o ++ bCR :: bLF :: r) = Decoded r m.
Proof.
  intros H. pose proof (P_full _ _ _ _ H r eq_refl) as E. rewrite !dump_app, dump_W, <- !app_assoc in E.
  change (dump [B bCR; B bLF] ++ r) with (bCR :: bLF :: r) in E.
  unfold decode_response. now rewrite E.
Qed.
Lemma response_line_error o r : Rj p_response (W (bs "* ") ++ o ++ [B bCR; B bLF]) any ->
  decode_response (bs "* " ++ dump o ++ bCR :: bLF :: r) = Error RspFailed.
Proof.
  intros H. pose proof (Rj_full _ _ _ H r eq_refl) as E. rewrite !dump_app, dump_W, <- !app_assoc in E.
  change (dump [B bCR; B bLF] ++ r) with (bCR :: bLF :: r) in E.
  unfold decode_response. now rewrite E.
Qed.

Hint Extern 1 (lead1 _ (W _)) => eapply L_digits; eassumption : leaddb.
Lemma P_exists d n : d <> [] -> digits d n -> (n <= u32_max)%N ->
  P p_response (W (bs "* ") ++ (W d ++ W (bs " EXISTS")) ++ [B bCR; B bLF]) (RData (DExists n)) any.
Proof.
  intros N D L. unfold p_response. cbn [bs W map app].
  repeat match goal with |- context [map B ?s] => change (map B s) with (W s) end.
  apply P_alt_skip; [rj |]. apply P_alt_skip; [rj |]. apply P_alt_here.
  unfold p_response_data, delimited. pstep.
  eapply P_bind with (f1 := eol); [| reflexivity | rt].
  repeat (apply P_alt_skip; [solve [rj] |]). apply P_alt_here.
  eapply P_pmap'; [reflexivity |]. unfold p_mailbox_data.
  repeat (apply P_alt_skip; [solve [rj] |]). apply P_alt_here.
  eapply P_pmap'; [reflexivity |]. unfold terminated.
  eapply P_bind; [apply (P_digits u32_max); eassumption | reflexivity | rt].
Qed.
Lemma Rj_app {A} (p : parser A) o1 o2 f1 f : Rj p o1 f1 -> leads f1 o2 f -> Rj p (o1 ++ o2) f.
Proof.
  intros [r1 r2] L. split.
  - intros s Hs. rewrite dump_app, <- app_assoc. apply r1. eapply leads_full; eassumption.
  - intros pre is8 m d post H.
    destruct (cut_app _ _ _ _ _ _ _ H) as [[post' E]|[pre' [-> E]]]; [eauto |].
    left. unfold upto_lit. rewrite dump_app, <- app_assoc.
    change (dump pre' ++ _) with (upto_lit pre' is8 m d). apply r1. eapply leads_cut; eassumption.
Qed.
Lemma Rj_exists d n : d <> [] -> digits d n -> (u32_max < n)%N ->
  Rj p_response (W (bs "* ") ++ (W d ++ W (bs " EXISTS")) ++ [B bCR; B bLF]) any.
Proof.
  intros N D L. unfold p_response. cbn [bs W map app].
  repeat match goal with |- context [map B ?s] => change (map B s) with (W s) end.
  rewrite <- app_assoc. cbn [app].
  assert (K : forall o, leads nd o any -> Rj p_number (W d ++ o) any).
  { intros o Lo. eapply Rj_app; [eapply Rj_digits; eassumption | exact Lo]. }
  assert (K' : forall o, leads nd o any -> Rj p_nz_number (W d ++ o) any).
  { intros o Lo. eapply Rj_app; [eapply Rj_nz; [assumption | eassumption | now right] | exact Lo]. }
  apply Rj_alt_cons; [rj |]. apply Rj_alt_cons; [rj |].
  apply Rj_alt_cons; [| rj].
  unfold p_response_data, delimited. eapply Rj_tgq; [reflexivity |]. apply Rj_bind.
  repeat (apply Rj_alt_cons; [first [solve [rj] | idtac] |]); try apply Rj_alt_nil.
  - apply Rj_bind. unfold p_mailbox_data.
    repeat (apply Rj_alt_cons; [first [solve [rj] | idtac] |]); try apply Rj_alt_nil.
    + apply Rj_bind. apply Rj_bind, K. reflexivity.
    + apply Rj_bind. apply Rj_bind, K. reflexivity.
  - apply Rj_bind. unfold p_message_data. apply Rj_alt_cons; [| rj].
    apply Rj_bind. apply Rj_bind, K'. reflexivity.
Qed.
Notation EXPUNGE := [B " "%byte; B "E"%byte; B "X"%byte; B "P"%byte; B "U"%byte; B "N"%byte; B "G"%byte; B "E"%byte].
Lemma Rj_counts d n : d <> [] -> digits d n ->
  Rj (pmap DExists (terminated p_number (kw " EXISTS"))) (W d ++ EXPUNGE) eol /\
  Rj (pmap DRecent (terminated p_number (kw " RECENT"))) (W d ++ EXPUNGE) eol.
Proof.
  intros N D. unfold terminated. destruct (N.le_gt_cases n u32_max) as [L | L].
  - split; apply Rj_bind; (eapply Rj_seq; [apply (P_digits u32_max); eassumption | reflexivity |]; rj).
  - split; apply Rj_bind; apply Rj_bind; (eapply Rj_app; [eapply Rj_digits; eassumption | reflexivity]).
Qed.
Lemma P_expunge d n : d <> [] -> digits d n -> (0 < n <= u32_max)%N ->
  P p_response (W (bs "* ") ++ (W d ++ W (bs " EXPUNGE")) ++ [B bCR; B bLF]) (RData (DExpunge n)) any.
Proof.
  intros N D L. unfold p_response. cbn [bs W map app].
  repeat match goal with |- context [map B ?s] => change (map B s) with (W s) end.
  apply P_alt_skip; [rj |]. apply P_alt_skip; [rj |]. apply P_alt_here.
  unfold p_response_data, delimited. pstep.
  eapply P_bind with (f1 := eol); [| reflexivity | rt].
  destruct (Rj_counts d n N D) as [K1 K2].
  do 2 (apply P_alt_skip; [solve [rj] |]).
  apply P_alt_skip.
  { apply Rj_bind. unfold p_mailbox_data.
    repeat (apply Rj_alt_cons; [first [solve [rj] | idtac] |]); try apply Rj_alt_nil; assumption. }
  apply P_alt_here. eapply P_pmap'; [reflexivity |]. unfold p_message_data. apply P_alt_here.
  unfold terminated. apply P_assoc. eapply P_bind; [apply P_nz; eassumption | reflexivity |]. rt.
Qed.
Lemma Rj_expunge d n : d <> [] -> digits d n -> (n = 0 \/ u32_max < n)%N ->
  Rj p_response (W (bs "* ") ++ (W d ++ W (bs " EXPUNGE")) ++ [B bCR; B bLF]) any.
Proof.
  intros N D L. unfold p_response. cbn [bs W map app].
  repeat match goal with |- context [map B ?s] => change (map B s) with (W s) end.
  apply Rj_alt_cons; [rj |]. apply Rj_alt_cons; [rj |].
  apply Rj_alt_cons; [| rj].
  unfold p_response_data, delimited. eapply Rj_tgq; [reflexivity |]. apply Rj_bind.
  apply (Rj_app _ _ _ eol); [| reflexivity].
  destruct (Rj_counts d n N D) as [K1 K2].
  repeat (apply Rj_alt_cons; [first [solve [rj] | idtac] |]); try apply Rj_alt_nil.
  - apply Rj_bind. unfold p_mailbox_data.
    repeat (apply Rj_alt_cons; [first [solve [rj] | idtac] |]); try apply Rj_alt_nil; assumption.
  - apply Rj_bind. unfold p_message_data. apply Rj_alt_cons; [| rj].
    apply Rj_bind, Rj_bind. eapply Rj_app; [eapply Rj_nz; eassumption | reflexivity].
Qed.

(** ** The length of a literal *)
Definition announce (d : bytes) (m : lit_mode) : bytes :=
  bs "{" ++ d ++ match m with Sync => [] | NonSync => bs "+" end ++ bs "}" ++ [bCR; bLF].
Lemma P_announce d n m : d <> [] -> digits d n -> (n <= u32_max)%N ->
  P (p_lit_header (bs "{")) (W (announce d m)) (n, m) any.
Proof.
  intros N D L. unfold p_lit_header, announce. rewrite W_app.
  change (W (bs "{")) with [B "{"%byte]. cbn [app]. eapply P_tg; [reflexivity |]. rewrite W_app.
  eapply P_bind; [apply (P_digits u32_max); eassumption | destruct m; cbn; reflexivity |].
  unfold p_lit_mode, pmap. apply P_assoc. destruct m.
  - nrm. apply P_opt_skip; [rj |]. apply P_retb. rt.
  - change (W _) with ([B "+"%byte] ++ [B "}"%byte; B bCR; B bLF]).
    eapply P_optb; [apply P_charl with (f := any) | ld |]. apply P_retb. rt.
Qed.
Lemma Rj_announce d n m : d <> [] -> digits d n -> (u32_max < n)%N ->
  Rj (p_lit_header (bs "{")) (W (announce d m)) any.
Proof.
  intros N D L. unfold p_lit_header, announce. rewrite W_app.
  change (W (bs "{")) with [B "{"%byte]. cbn [app]. eapply Rj_tgq; [reflexivity |]. rewrite W_app.
  apply Rj_bind. eapply Rj_app; [eapply Rj_digits; eassumption | destruct m; reflexivity].
Qed.
Lemma alt_skip {A} (p : parser A) ps i : p i = RErr -> ps <> [] -> alt (p :: ps) i = alt ps i.
Proof. intros H N. destruct ps; [congruence |]. cbn [alt]. unfold orp at 1. now rewrite H. Qed.
Lemma alt_fail {A} (p : parser A) ps i f : p i = RFail f -> alt (p :: ps) i = RFail f.
Proof. intros H. destruct ps; cbn [alt]; [exact H |]. unfold orp. now rewrite H. Qed.
Lemma alt_last {A} (p : parser A) i : alt [p] i = p i.
Proof. reflexivity. Qed.
Lemma alt_one {A} (ps : list (parser A)) i r : match r with RErr | RFail _ => True | _ => False end ->
  (forall q, In q ps -> q i = RErr \/ q i = r) -> (exists p, In p ps /\ p i = r) -> alt ps i = r.
Proof.
  intros Hr. induction ps as [| q ps IH]; [now intros _ (p & [] & _) |]. intros Hq (p & Hp & E).
  destruct ps as [| q' ps].
  - destruct Hp as [-> | []]. exact E.
  - change (alt (q :: q' :: ps) i) with (orp q (alt (q' :: ps)) i). unfold orp.
    assert (T : q i = RErr -> alt (q' :: ps) i = r).
    { intros Eq. destruct Hp as [-> | Hp].
      - destruct r; try contradiction; [| congruence].
        apply IH; [intros; apply Hq; now right |]. exists q'. split; [now left |].
        destruct (Hq q' (or_intror (or_introl eq_refl))); assumption.
      - apply IH; [intros; apply Hq; now right | eauto]. }
    destruct (Hq q (or_introl eq_refl)) as [Eq | Eq].
    + rewrite Eq. now apply T.
    + destruct r; try contradiction; rewrite Eq; [now apply T | reflexivity].
Qed.
Lemma mailbox_literal x : hd_error x = Some "{"%byte -> match p_literal x with
  | RFail f => p_mailbox x = RFail f | RErr => p_mailbox x = RErr | _ => True end.
Proof.
  intros H. destruct x as [| b x]; [discriminate |]. injection H as ->.
  assert (E : p_mailbox ("{"%byte :: x) =
    expect (pmap AString (pmap ILiteral p_literal)) mailbox_from ("{"%byte :: x)).
  { unfold p_mailbox, expect, bind, p_astring.
    rewrite alt_skip; [| reflexivity | discriminate]. rewrite alt_last.
    unfold pmap at 1, bind, p_string.
    rewrite alt_skip; [| reflexivity | discriminate].
    rewrite alt_skip; [| unfold gate; destruct ext_utf8; reflexivity | discriminate].
    rewrite alt_last. reflexivity. }
  destruct (p_literal ("{"%byte :: x)) eqn:L; auto; rewrite E; unfold expect, pmap, bind; now rewrite L.
Qed.
Lemma literal_announced d n m : d <> [] -> digits d n ->
  p_literal (announce d m) = if N.leb n u32_max then RFail (FLit None n m) else RErr.
Proof.
  intros N D. unfold p_literal, bind at 1. destruct (N.leb_spec n u32_max) as [L | L].
  - pose proof (P_full _ _ _ _ (P_announce d n m N D L) [] eq_refl) as E.
    rewrite dump_W, app_nil_r in E. now rewrite E.
  - pose proof (Rj_full _ _ _ (Rj_announce d n m N D L) [] eq_refl) as E.
    rewrite dump_W, app_nil_r in E. now rewrite E.
Qed.
Lemma create_announced t d n m : tag_ok t = true -> d <> [] -> digits d n ->
  decode_command (t ++ bs " CREATE " ++ announce d m) =
    Error (if N.leb n u32_max then CmdLiteralFound t n m else CmdFailed).
Proof.
  intros Ht N D.
  assert (T : P (terminated p_tag_imap sp) (W t ++ [B bSP]) t any).
  { unfold terminated. eapply P_bind; [now apply P_p_tag | reflexivity |]. rt. }
  assert (C : p_command_body (bs "CREATE " ++ announce d m) =
    if N.leb n u32_max then RFail (FLit None n m) else RErr).
  { unfold p_command_body, terminated, bind at 1.
    assert (R1 : Rj p_command_any (W (bs "CREATE ") ++ W (announce d m)) any) by (nrm; rj).
    assert (R3 : Rj p_command_nonauth (W (bs "CREATE ") ++ W (announce d m)) any) by (nrm; rj).
    assert (R4 : Rj p_command_select (W (bs "CREATE ") ++ W (announce d m)) any) by (nrm; rj).
    apply Rj_full with (s := []) in R1, R3, R4; try reflexivity.
    rewrite dump_app, !dump_W, app_nil_r in R1, R3, R4.
    rewrite alt_skip; [| exact R1 | discriminate].
    assert (R2 : p_command_auth (bs "CREATE " ++ announce d m) =
      if N.leb n u32_max then RFail (FLit None n m) else RErr).
    { clear R1 R3 R4. unfold p_command_auth.
      assert (M : p_create (bs "CREATE " ++ announce d m) =
        if N.leb n u32_max then RFail (FLit None n m) else RErr).
      { pose proof (mailbox_literal (announce d m) eq_refl) as M.
        rewrite (literal_announced d n m N D) in M. unfold p_create, pmap, bind.
        destruct (N.leb n u32_max); cbn [bs app]; cbn -[p_mailbox announce]; now rewrite M. }
      apply alt_one; [now destruct (N.leb n u32_max) | | exists p_create; split; [cbn; tauto | exact M]].
      intros q Hq. cbn [In] in Hq.
      repeat (destruct Hq as [<- | Hq]; [first [now right | left; clear; match goal with |- ?q _ = _ =>
        let K := fresh in assert (K : Rj q (W (bs "CREATE ") ++ W (announce d m)) any) by (nrm; rj);
        apply Rj_full with (s := []) in K; [| reflexivity]; rewrite dump_app, !dump_W, app_nil_r in K;
        exact K end] |]). contradiction. }
    rewrite (alt_one _ _ (if N.leb n u32_max then RFail (FLit None n m) else RErr)).
    - now destruct (N.leb n u32_max).
    - now destruct (N.leb n u32_max).
    - intros q Hq. cbn [In] in Hq. destruct Hq as [<- | [<- | [<- | []]]]; auto.
    - exists p_command_auth. split; [now left | exact R2]. }
  replace (t ++ bs " CREATE " ++ announce d m) with
    (dump (W t ++ [B bSP]) ++ bs "CREATE " ++ announce d m)
    by (rewrite dump_app, dump_W, <- app_assoc; reflexivity).
  unfold decode_command, p_command, bind at 1. rewrite (P_full _ _ _ _ T) by reflexivity.
  unfold pmap, bind. rewrite C. now destruct (N.leb n u32_max).
Qed.
End Read.

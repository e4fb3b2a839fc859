(** Reading back envelopes, body structures, fetch items and search keys. *)

From Verif Require Import Bytes Dec Features Nom Types Utf8 Conv SeqSet Base64 Date ParseCore ParseBody
  EncodeCtx Encode Valid BytesFacts EncodeFacts ParserFacts QuotedFacts OkTac OkCore OkBody ValidFacts
  RtFacts RtTac RtCore.
Open Scope nat_scope.

(** Inside parentheses *)
Definition rp : follow := on (fun b => beq b ")"%byte).
Ltac sub ::=
  cbv beta;
  first [ intros ? H; exact H
        | exact (fun _ _ => eq_refl)
        | unfold some, nd, na, nas, nlc, rp, dl, ns, nc, non; apply on_impl; vm_compute; reflexivity ].

(** A separated list whose separator may also start what follows. *)
Lemma P_sep_loop_bind' {A T C} (p : parser A) (sep : parser C) (so : bytes) c (e : A -> list op) l :
  forall (q : list A -> parser T) o v fe f,
  so <> [] -> P sep (W so) c any -> fe (hd_error so) = true ->
  (forall i r a, sep i = ROk r a -> length r < length i) ->
  (forall x, In x l -> P p (e x) x fe) ->
  leads fe o f -> Rj (bind sep (fun _ => p)) o f -> P (q l) o v f ->
  P (bind (sep_loop sep p) q) (flat_map (fun x => W so ++ e x) l ++ o) v f.
Proof.
  intros q o v fe f Nso Ps Fs Hc He L R H.
  (* the loop with the guarded separator *)
  assert (St : forall (q : list A -> parser T) i, bind sep (fun _ => p) i = RErr ->
            bind (sep_loop sep p) q i = q [] i).
  { intros q' i. unfold bind, sep_loop. cbn [sep_loop_f]. specialize (Hc i).
    destruct (sep i) as [r a| | | |]; try discriminate; intros E; [| reflexivity].
    specialize (Hc _ _ eq_refl). apply Nat.ltb_lt in Hc. rewrite Hc, E. reflexivity. }
  assert (Fl : forall (q : list A -> parser T) i x, bind sep (fun _ => p) i = RFail x ->
            bind (sep_loop sep p) q i = RFail x).
  { intros q' i x. unfold bind, sep_loop. cbn [sep_loop_f]. specialize (Hc i).
    destruct (sep i) as [r a| | | |]; try discriminate; intros E.
    - specialize (Hc _ _ eq_refl). apply Nat.ltb_lt in Hc. rewrite Hc, E. reflexivity.
    - injection E as ->. reflexivity. }
  revert q o v f L R H. induction l as [|x l IH]; intros q o v f L R H; cbn [flat_map].
  - destruct R as [r1 r2], H as [H1 H2]. cbn [app]. split; intros.
    + rewrite St by auto. auto.
    + destruct (r2 _ _ _ _ _ H) as [E|E].
      * rewrite St by exact E. eauto.
      * apply Fl, E.
  - destruct (He x (or_introl eq_refl)) as [p1 p2].
    assert (He' : forall x, In x l -> P p (e x) x fe) by (intros; apply He; now right).
    destruct (IH He' (fun l => q (x :: l)) o v f L R H) as [h1 h2].
    destruct Ps as [s1 s2].
    assert (L' : leads fe (flat_map (fun x => W so ++ e x) l ++ o) f).
    { destruct l as [|y l]; [exact L|]. cbn [flat_map]. destruct so; [congruence|]. exact Fs. }
    rewrite <- !app_assoc.
    assert (LL : forall s, length s < length (so ++ s)).
    { intros s. rewrite app_length. destruct so; [congruence|]. cbn. lia. }
    assert (K : forall s, sep (so ++ s) = ROk s c).
    { intros s. specialize (s1 s eq_refl). rewrite dump_W in s1. exact s1. }
    split.
    + intros s Hs. rewrite dump_app, dump_W, <- app_assoc, dump_app, <- app_assoc.
      erewrite sep_loop_more; [| apply K | apply LL | apply p1; eapply leads_full; eassumption
        | rewrite (app_length (dump (e x))); lia].
      apply h1, Hs.
    + intros pre is8 m d post E.
      destruct (cut_app _ _ _ _ _ _ _ E) as [[post' E']|[pre1 [-> E1]]].
      { destruct (noLit_cut _ _ _ _ _ _ (noLit_W so) E'). }
      unfold upto_lit. rewrite dump_app, dump_W, <- app_assoc.
      destruct (cut_app _ _ _ _ _ _ _ E1) as [[post' E']|[pre' [-> E']]].
      * eapply sep_loop_fail2; [apply K | apply LL | eapply p2, E'].
      * rewrite dump_app, <- app_assoc. change (dump pre' ++ _) with (upto_lit pre' is8 m d).
        erewrite sep_loop_more; [| apply K | apply LL | apply p1; eapply leads_cut; eassumption
          | rewrite (app_length (dump (e x))); lia].
        eapply h2, E'.
Qed.

(** A written word against a keyword *)
Lemma kw_more t : forall x s, tag_no_case t x = RErr -> tag_no_case t (x ++ s) = RErr.
Proof.
  induction t as [|c t IH]; intros x s; [discriminate |]. destruct x as [|b x]; [discriminate |].
  cbn [app tag_no_case]. destruct (beq (lower b) (lower c)); [apply IH | reflexivity].
Qed.
Lemma kw_done t : forall x s, tag_no_case t x = ROk [] tt -> tag_no_case t (x ++ s) = ROk s tt.
Proof.
  induction t as [|c t IH]; intros x s.
  - cbn. intros E. injection E as ->. reflexivity.
  - destruct x as [|b x]; [discriminate |].
    cbn [app tag_no_case]. destruct (beq (lower b) (lower c)); [apply IH | discriminate].
Qed.
Lemma kw_split t u i : tag_no_case (t ++ u) i = bind (tag_no_case t) (fun _ => tag_no_case u) i.
Proof.
  revert i. induction t as [|c t IH]; intros [|b i]; try reflexivity.
  cbn [app tag_no_case]. destruct (beq (lower b) (lower c)) eqn:E; unfold bind in *; cbn [tag_no_case].
  - rewrite E. apply IH.
  - rewrite E. reflexivity.
Qed.
Lemma Rj_kwx t x o f : tag_no_case t x = RErr -> Rj (tag_no_case t) (W x ++ o) f.
Proof.
  intros H. split.
  - intros s _. rewrite dump_app, dump_W, <- app_assoc. now apply kw_more.
  - intros pre is8 m d post E. left.
    destruct (cut_app _ _ _ _ _ _ _ E) as [[post' E']|[pre1 [-> E1]]].
    { destruct (noLit_cut _ _ _ _ _ _ (noLit_W x) E'). }
    unfold upto_lit. rewrite dump_app, dump_W, <- app_assoc. now apply kw_more.
Qed.
Lemma P_kwx t x : tag_no_case t x = ROk [] tt -> P (tag_no_case t) (W x) tt any.
Proof. intros H. apply P_tok. intros s _. now apply kw_done. Qed.

(** A word and a closing quote against an escaped string and its closing quote: whole match or mismatch. *)
Lemma kw_quoted w : forallb (fun b => negb (beq (lower b) bDQ) && negb (beq (lower b) bBS)) w = true ->
  forall q, tag_no_case (w ++ [bDQ]) (escape_quoted q ++ [bDQ]) = RErr \/
            tag_no_case (w ++ [bDQ]) (escape_quoted q ++ [bDQ]) = ROk [] tt.
Proof.
  intros Hw q. rewrite escape_quoted_flat. revert Hw q.
  induction w as [|c w IH]; intros Hw [|b q].
  - right. reflexivity.
  - left. cbn [app flat_map]. unfold esc_char at 1.
    destruct (is_quoted_specials b) eqn:E1; [reflexivity |].
    cbn [app tag_no_case]. destruct (beq (lower b) (lower bDQ)) eqn:E; [| reflexivity].
    exfalso.
    assert (K : forallb (fun b => implb (negb (is_quoted_specials b)) (negb (beq (lower b) (lower bDQ)))) all_bytes = true)
      by (vm_compute; reflexivity).
    pose proof (byte_forall _ K b) as X. cbv beta in X. rewrite E1, E in X. discriminate.
  - left. cbn [forallb] in Hw. vs. cbn [app tag_no_case flat_map].
    change (lower bDQ) with bDQ. rewrite beq_sym. now rewrite H.
  - cbn [forallb] in Hw. vs. cbn [app flat_map]. unfold esc_char at 1 3.
    destruct (is_quoted_specials b) eqn:E1.
    { left. cbn [app tag_no_case]. change (lower bBS) with bBS. rewrite beq_sym. now rewrite H1. }
    cbn [app tag_no_case]. destruct (beq (lower b) (lower c)); [apply IH; assumption | left; reflexivity].
Qed.

Section Rt.
Context {F : features}.
Notation lv := LExact.

Lemma P_p_nstring8 n : v_nstring8 lv n = true -> P p_nstring8 (e_nstring8 n) n some.
Proof.
  intros V. unfold p_nstring8. destruct n; cbn [v_nstring8] in V; cbn [e_nstring8]; [rt |].
  cbn [e_literal8]. unfold e_literal8. apply P_alt_skip; [rj |]. fold (e_literal8 l). rt.
Qed.
Lemma L_nstring8 n : lead1 (on (fun b => is_nstr1 b || beq b "~"%byte)) (e_nstring8 n).
Proof.
  destruct n; cbn [e_nstring8]; [l1 | apply lead1_Lit; reflexivity].
Qed.
Hint Resolve P_p_nstring8 : rtdb.
Hint Resolve L_nstring8 : leaddb.

(** *** Envelopes *)
Lemma P_p_address a : v_address lv a = true -> P p_address (e_address a) a any.
Proof.
  intros V. unfold v_address in V. vs. unfold p_address, e_address.
  assert (K : forall o, P (tg "(" ;;; name <- p_nstring ;; sp ;;; adl <- p_nstring ;; sp ;;;
      mb <- p_nstring ;; sp ;;; host <- p_nstring ;; tg ")" ;;; ret (mkAddress name adl mb host)) o a any ->
      first o = Some "("%byte ->
      P ((if quirk_spaces_between_addresses then many0 sp ;;; ret tt else ret tt) ;;;
       tg "(" ;;; name <- p_nstring ;; sp ;;; adl <- p_nstring ;; sp ;;;
       mb <- p_nstring ;; sp ;;; host <- p_nstring ;; tg ")" ;;; ret (mkAddress name adl mb host)) o a any).
  { intros o HP Ho. destruct quirk_spaces_between_addresses.
    - apply P_assoc. change o with (flat_map (fun _ : byte => @nil op) [] ++ o).
      eapply P_many0_bind with (fe := any); [intros ? [] | apply leads_any | | ].
      + eapply Rj_starts with (Q := fun b => beq b "("%byte).
        * destruct o as [|[]]; try discriminate; cbn in Ho |- *; injection Ho as ->; reflexivity.
        * intros b Hb. apply beq_eq in Hb. subst b. rf.
      + rt. exact HP.
    - rt. exact HP. }
  apply K; [| reflexivity]. destruct a as [a1 a2 a3 a4]; cbn [ad_name ad_adl ad_mailbox ad_host] in *. rt.
Qed.
Lemma L_address a : lead1 (on (fun b => beq b "("%byte)) (e_address a).
Proof. unfold e_address. nrm. l1. Qed.

Lemma join_nil {A} (e : A -> list op) l : join [] e l = flat_map e l.
Proof.
  induction l as [|x l IH]; [reflexivity |]. rewrite join_cons. reflexivity.
Qed.
Lemma Rj_p_address f : rp = f -> Rj p_address [] f.
Proof.
  intros <-. unfold p_address. destruct quirk_spaces_between_addresses; [| rj].
  apply Rj_assoc. eapply Rj_starts with (Q := fun b => beq b ")"%byte); [exact (leads_id _) |].
  intros b Hb s. apply beq_eq in Hb. subst b. reflexivity.
Qed.
Lemma P_p_addresses l : v_addresses lv l = true -> P p_addresses (e_addresses l) l any.
Proof.
  intros V. unfold p_addresses, p_nil, e_addresses, list1_or_nil, v_addresses in *. destruct l as [|a l].
  - rt.
  - apply P_alt_here. rewrite join_nil. nrm.
    unfold delimited. pstep. eapply P_bind with (f1 := rp); [| ld |].
    + rewrite forallb_forall in V.
      eapply P_many1 with (e := e_address) (fe := any); [discriminate | | reflexivity | now apply Rj_p_address].
      intros x Hx. split; [apply P_p_address; auto |]. eapply lead1_weak; [| apply L_address]. reflexivity.
    + rt.
Qed.
Lemma L_addresses l : lead1 (on (fun b => beq b "("%byte || beq b "N"%byte)) (e_addresses l).
Proof. destruct l; cbn [e_addresses list1_or_nil]; unfold e_addresses, list1_or_nil; nrm; l1. Qed.
Hint Resolve P_p_addresses : rtdb.
Hint Resolve L_addresses : leaddb.
Lemma P_p_envelope e : v_envelope lv e = true -> P p_envelope (e_envelope e) e any.
Proof.
  intros V. unfold v_envelope in V. vs. unfold p_envelope, e_envelope.
  destruct e as [x1 x2 x3 x4 x5 x6 x7 x8 x9 x10].
  cbn [env_date env_subject env_from env_sender env_reply_to env_to env_cc env_bcc env_in_reply_to
    env_message_id] in *. rt.
Qed.
Lemma L_envelope e : lead1 (on (fun b => beq b "("%byte)) (e_envelope e).
Proof. unfold e_envelope. nrm. l1. Qed.
Hint Resolve P_p_envelope : rtdb.
Hint Resolve L_envelope : leaddb.

(** *** Body structures *)
Lemma P_p_pair x : vpair (v_istring lv) (v_istring lv) x = true ->
  P p_pair (e_pair e_istring e_istring x) x some.
Proof. destruct x as [k v]. intros V. vs. unfold p_pair, e_pair. cbn [fst snd]. rt. Qed.
Lemma P_p_body_fld_param l : v_params lv l = true -> P p_body_fld_param (e_params l) l any.
Proof.
  intros V. unfold p_body_fld_param, p_nil, e_params, list1_or_nil, v_params in *.
  destruct l as [|x l]; [rt |].
  apply P_alt_here. nrm. unfold delimited. pstep. eapply P_bind with (f1 := rp); [| ld |].
  - eapply P_joinsp0 with (fe := some); [exact V | exact P_p_pair | reflexivity | ld | rj | rj].
  - rt.
Qed.
Lemma L_params l : lead1 (on (fun b => beq b "("%byte || beq b "N"%byte)) (e_params l).
Proof. destruct l; unfold e_params, list1_or_nil; nrm; l1. Qed.
Hint Resolve P_p_body_fld_param : rtdb.
Hint Resolve L_params : leaddb.
Lemma P_p_body_fld_enc s : v_istring lv s = true -> P p_body_fld_enc (e_istring s) s some.
Proof.
  intros V. unfold p_body_fld_enc. destruct quirk_body_fld_enc_nil_to_empty; [| rt].
  eapply P_pmap'; [| apply (P_p_nstring (Some s) V)]. reflexivity.
Qed.
Lemma P_p_body_fld_octets n : v_u32 n = true -> P p_body_fld_octets (e_num n) n nd.
Proof.
  intros V. unfold p_body_fld_octets. destruct quirk_rectify_numbers; [| rt].
  apply P_alt_here. rt.
Qed.
Hint Resolve P_p_body_fld_enc P_p_body_fld_octets : rtdb.
Lemma P_p_body_fields b : v_basic lv b = true -> P p_body_fields (e_basic b) b nd.
Proof.
  intros V. unfold v_basic in V. vs. destruct b as [b1 b2 b3 b4 b5].
  cbn [bf_params bf_id bf_description bf_encoding bf_size] in *.
  unfold p_body_fields, e_basic. cbn [bf_params bf_id bf_description bf_encoding bf_size]. rt.
Qed.
Lemma L_basic b : lead1 (on (fun b => beq b "("%byte || beq b "N"%byte)) (e_basic b).
Proof. unfold e_basic. nrm. l1. Qed.
Hint Resolve P_p_body_fields : rtdb.
Hint Resolve L_basic : leaddb.

Lemma P_p_body_extension n : forall b, v_body_extension lv b = true -> be_depth b <= n ->
  P (p_body_extension n) (e_body_extension b) b dl.
Proof.
  induction n as [|n IH]; intros b V D.
  { destruct b; cbn in D; lia. }
  cbn [p_body_extension]. destruct b as [s|m|l].
  - cbn in V. cbn [e_body_extension]. apply P_alt_here. rt.
  - cbn in V. cbn [e_body_extension]. rt.
  - cbn [v_body_extension] in V. cbn [e_body_extension]. vs. cbn [be_depth] in D.
    change (join spc e_body_extension l) with (joinsp e_body_extension l). nrm.
    do 2 (apply P_alt_skip; [rj |]). apply P_alt_here. eapply P_pmap'; [reflexivity |].
    apply P_vec1; [assumption |]. unfold delimited. pstep.
    eapply P_bind with (f1 := rp); [| ld | rt].
    rewrite forallb_forall in H0.
    unfold joinsp, spc. change [B bSP] with (W [bSP]).
    eapply P_sep1 with (fe := dl); [now destruct l | discriminate | apply P_sp | reflexivity
      | | sub | rj].
    intros x Hx. apply IH; [auto |].
    assert (be_depth x <= list_max (map be_depth l)).
    { clear -Hx. induction l as [|y l IHl]; [destruct Hx |]. cbn. destruct Hx as [-> | Hx]; [lia |].
      specialize (IHl Hx). unfold list_max in IHl. lia. }
    lia.
Qed.
Lemma P_p_body_fld_dsp d : vopt (vpair (v_istring lv) (v_params lv)) d = true ->
  P p_body_fld_dsp (match d with Some (s, p) => paren (e_istring s ++ spc ++ e_params p) | None => W (bs "NIL") end) d any.
Proof.
  intros V. unfold p_body_fld_dsp, p_nil. destruct d as [[s p]|]; [| rt].
  cbn in V. vs. apply P_alt_here. rt.
Qed.
Lemma P_p_body_fld_lang l : forallb (v_istring lv) l = true ->
  P p_body_fld_lang (list1_or_nil spc e_istring l) l some.
Proof.
  intros V. unfold p_body_fld_lang, list1_or_nil. destruct l as [|x l].
  - apply P_alt_here. eapply P_pmap'; [| apply (P_p_nstring None eq_refl)]. reflexivity.
  - nrm. apply P_alt_skip; [rj |]. apply P_alt_here. unfold delimited. pstep.
    eapply P_bind with (f1 := rp); [| ld | rt].
    eapply P_joinsp with (v := v_istring lv) (fe := some);
      [exact V | exact P_p_string | reflexivity | ld | rj].
Qed.
Lemma P_p_location l : v_location lv l = true -> P p_location (spc ++ e_location l) l rp.
Proof.
  intros V. unfold v_location in V. vs. destruct l as [l es].
  cbn [loc_location loc_extensions] in *. unfold p_location, e_location.
  cbn [loc_location loc_extensions]. nrm. pstep.
  eapply P_bind with (f1 := some); [rt | destruct es; [cbn [flat_map]; ld | reflexivity] |].
  cbv beta. match goal with |- P _ (flat_map ?e' es) _ _ => set (e := e') end.
  rewrite <- (app_nil_r (flat_map e es)).
  rewrite forallb_forall in H0.
  eapply P_many0_bind with (fe := dl); [| ld | rj | rt].
  intros x Hx. specialize (H0 _ Hx). cbn in H0. vs. apply Nat.leb_le in H1. split.
  - unfold e. nrm. pstep. now apply P_p_body_extension.
  - unfold e. nrm. l1.
Qed.
Lemma P_p_language l : v_language lv l = true -> P p_language (spc ++ e_language l) l rp.
Proof.
  intros V. unfold v_language in V. vs. destruct l as [l t].
  cbn [lang_language lang_tail] in *. unfold p_language, e_language.
  cbn [lang_language lang_tail]. nrm. pstep.
  eapply P_bind; [now apply P_p_body_fld_lang | destruct t; [reflexivity | unfold e_tail, e_opt; ld] |]. cbv beta.
  destruct t; cbn [e_tail]; unfold e_tail, e_opt.
  - eapply P_bindl; [apply P_opt_some; now apply P_p_location | ld | rt].
  - apply P_opt_skip; [rj | rt].
Qed.
Lemma P_p_disposition l : v_disposition lv l = true -> P p_disposition (spc ++ e_disposition l) l rp.
Proof.
  intros V. unfold v_disposition in V. vs. destruct l as [l t].
  cbn [disp_disposition disp_tail] in *. unfold p_disposition, e_disposition.
  cbn [disp_disposition disp_tail]. unfold spc. cbn [app]. pstep.
  eapply P_bind; [now apply P_p_body_fld_dsp | ld |]. cbv beta.
  destruct t; cbn [e_tail]; unfold e_tail, e_opt.
  - eapply P_bindl; [apply P_opt_some; now apply P_p_language | ld | rt].
  - apply P_opt_skip; [rj | rt].
Qed.
Lemma P_p_body_ext_1part s : v_single_ext lv s = true -> P p_body_ext_1part (e_single_ext s) s rp.
Proof.
  intros V. unfold v_single_ext in V. vs. destruct s as [m t].
  cbn [se_md5 se_tail] in *. unfold p_body_ext_1part, e_single_ext. cbn [se_md5 se_tail].
  eapply P_bind; [now apply P_p_nstring | destruct t; [reflexivity | unfold e_tail, e_opt; ld] |]. cbv beta.
  destruct t; cbn [e_tail]; unfold e_tail, e_opt.
  - eapply P_bindl; [apply P_opt_some; now apply P_p_disposition | ld | rt].
  - apply P_opt_skip; [rj | rt].
Qed.
Lemma P_p_body_ext_mpart s : v_multi_ext lv s = true -> P p_body_ext_mpart (e_multi_ext s) s rp.
Proof.
  intros V. unfold v_multi_ext in V. vs. destruct s as [m t].
  cbn [me_params me_tail] in *. unfold p_body_ext_mpart, e_multi_ext. cbn [me_params me_tail].
  eapply P_bind; [now apply P_p_body_fld_param | ld |]. cbv beta.
  destruct t; cbn [e_tail]; unfold e_tail, e_opt.
  - eapply P_bindl; [apply P_opt_some; now apply P_p_disposition | ld | rt].
  - apply P_opt_skip; [rj | rt].
Qed.
Hint Resolve P_p_body_ext_1part P_p_body_ext_mpart : rtdb.
Lemma L_single_ext s : lead1 (on is_nstr1) (e_single_ext s).
Proof. unfold e_single_ext. l1. Qed.
Lemma L_multi_ext s : lead1 (on (fun b => beq b "("%byte || beq b "N"%byte)) (e_multi_ext s).
Proof. unfold e_multi_ext. l1. Qed.
Hint Resolve L_single_ext L_multi_ext : leaddb.

Lemma P_orp_bind_skip {A T} (p q : parser A) (k : A -> parser T) o v f :
  Rj p o f -> P (bind q k) o v f -> P (bind (orp p q) k) o v f.
Proof.
  intros [r1 r2] [H1 H2]. split; intros.
  - unfold bind, orp. rewrite r1 by assumption. now apply H1.
  - unfold bind, orp. destruct (r2 _ _ _ _ _ H) as [E|E]; rewrite E; [| reflexivity].
    eapply H2, H.
Qed.
Lemma P_orp_bind_here {A T} (p q : parser A) (k : A -> parser T) o1 o2 v w f1 f :
  P p o1 v f1 -> leads f1 o2 f -> P (k v) o2 w f -> P (bind (orp p q) k) (o1 ++ o2) w f.
Proof. intros H. apply P_bind. now apply P_orp_l. Qed.

Lemma istring_kw w s : 
  forallb (fun b => negb (beq (lower b) bDQ) && negb (beq (lower b) bBS)) w = true ->
  (forall o f, Rj (tag_no_case (bDQ :: w ++ [bDQ])) (e_istring s ++ o) f) \/
  P (tag_no_case (bDQ :: w ++ [bDQ])) (e_istring s) tt any.
Proof.
  intros Hw.
  assert (Q : forall q, e_quoted q = W (bDQ :: escape_quoted q ++ [bDQ])).
  { intros q. unfold e_quoted. change (W (bDQ :: ?x)) with (B bDQ :: W x). now rewrite W_app. }
  assert (K : forall q,
    (forall o f, Rj (tag_no_case (bDQ :: w ++ [bDQ])) (e_quoted q ++ o) f) \/
    P (tag_no_case (bDQ :: w ++ [bDQ])) (e_quoted q) tt any).
  { intros q. rewrite Q. destruct (kw_quoted w Hw q) as [E|E].
    - left. intros o f. apply Rj_kwx. exact E.
    - right. apply P_kwx. exact E. }
  destruct s; cbn [e_istring]; try apply K.
  left. intros o f. unfold e_literal. cbn [app]. rj.
Qed.

Lemma Rj_tail_number {T} (q : N -> parser T) ext :
  Rj (sp ;;; n <- p_number ;; q n) (e_tail e_single_ext ext) rp.
Proof. destruct ext; unfold e_tail, e_opt; nrm; rj. Qed.
Lemma Rj_tail_env {T} (q : envelope -> parser T) ext :
  Rj (sp ;;; n <- p_envelope ;; q n) (e_tail e_single_ext ext) rp.
Proof. destruct ext; unfold e_tail, e_opt; nrm; rj. Qed.
Lemma leads_tail {A} (e : A -> list op) ext f : f (Some bSP) = true -> f (Some ")"%byte) = true ->
  leads f (e_tail e ext) rp.
Proof.
  intros H1 H2. destruct ext; unfold e_tail, e_opt, spc; cbn [leads first app]; [exact H1 |].
  intros [b|] Hb; [| discriminate]. cbn in Hb. apply beq_eq in Hb. now subst b.
Qed.

Lemma Rj_text_basic t s b ext : v_istring lv s = true -> v_basic lv b = true ->
  Rj p_body_type_text (e_istring t ++ spc ++ e_istring s ++ spc ++ e_basic b ++ e_tail e_single_ext ext) rp.
Proof.
  intros Vs Vb. unfold p_body_type_text, p_media_text.
  change (tag_no_case (bs """TEXT"" ")) with (tag_no_case ((bDQ :: bs "TEXT" ++ [bDQ]) ++ [bSP])).
  apply Rj_assoc. eapply Rj_ext.
  { intros i. unfold bind at 1. rewrite kw_split. reflexivity. }
  change (Rj (bind (bind (tag_no_case (bDQ :: bs "TEXT" ++ [bDQ])) (fun _ => tag_no_case [bSP]))
    (fun _ => sub <- p_string ;; sp ;;; b <- p_body_fields ;; sp ;;; n <- p_number ;; ret (b, SFText sub n)))
    (e_istring t ++ spc ++ e_istring s ++ spc ++ e_basic b ++ e_tail e_single_ext ext) rp).
  apply Rj_assoc.
  destruct (istring_kw (bs "TEXT") t eq_refl) as [R|R]; [apply Rj_bind, R |].
  eapply Rj_seq; [exact R | ld |]. nrm.
  eapply Rj_kwq; [reflexivity |].
  eapply Rj_seq; [now apply P_p_string | ld |]. cbv beta. apply (Rj_char_eat bSP).
  eapply Rj_seq; [now apply P_p_body_fields | apply leads_tail; reflexivity |].
  apply Rj_tail_number.
Qed.
Lemma Rj_msg_basic pb t s b ext : v_basic lv b = true ->
  Rj (p_body_type_msg pb) (e_istring t ++ spc ++ e_istring s ++ spc ++ e_basic b ++ e_tail e_single_ext ext) rp.
Proof.
  intros Vb. unfold p_body_type_msg, p_media_message.
  match goal with |- Rj (bind _ ?k) _ _ => set (q := k) end.
  eapply Rj_ext with (q := bind (bind (tag_no_case (bDQ :: bs "MESSAGE" ++ [bDQ]))
     (fun _ => bind (tag_no_case [bSP]) (fun _ => tag_no_case (bDQ :: bs "RFC822" ++ [bDQ])))) q).
  { assert (E : forall i, tag_no_case (bs """MESSAGE"" ""RFC822""") i =
      bind (tag_no_case (bDQ :: bs "MESSAGE" ++ [bDQ]))
        (fun _ => bind (tag_no_case [bSP]) (fun _ => tag_no_case (bDQ :: bs "RFC822" ++ [bDQ]))) i).
    { intros i.
      change (tag_no_case (bs _) i) with
        (tag_no_case ((bDQ :: bs "MESSAGE" ++ [bDQ]) ++ ([bSP] ++ (bDQ :: bs "RFC822" ++ [bDQ]))) i).
      rewrite kw_split. unfold bind at 1 2.
      destruct (tag_no_case (bDQ :: bs "MESSAGE" ++ [bDQ]) i); try reflexivity. apply kw_split. }
    intros i. unfold bind at 1. rewrite E. reflexivity. }
  apply Rj_assoc.
  destruct (istring_kw (bs "MESSAGE") t eq_refl) as [R|R]; [apply Rj_bind, R |].
  eapply Rj_seq; [exact R | ld |]. cbv beta. apply Rj_assoc. nrm.
  eapply Rj_kwq; [reflexivity |].
  destruct (istring_kw (bs "RFC822") s eq_refl) as [R2|R2]; [apply Rj_bind, R2 |].
  eapply Rj_seq; [exact R2 | ld |]. unfold q. apply (Rj_char_eat bSP).
  eapply Rj_seq; [now apply P_p_body_fields | apply leads_tail; reflexivity |].
  apply Rj_tail_env.
Qed.

(** Nesting of any kind *)
Fixpoint body_height (b : body_structure) : nat :=
  match b with
  | BSSingle _ (SFMessage _ c _) _ => S (body_height c)
  | BSSingle _ _ _ => 1
  | BSMulti l _ _ => S (list_max (map body_height l))
  end.
Lemma body_height_in x l : In x l -> body_height x <= list_max (map body_height l).
Proof.
  intros Hx. induction l as [|y l IHl]; [destruct Hx |]. cbn. destruct Hx as [-> | Hx]; [lia |].
  specialize (IHl Hx). unfold list_max in IHl. lia.
Qed.
Lemma body_height_pos b : 1 <= body_height b.
Proof. destruct b as [? [] ?|]; cbn; lia. Qed.
Lemma L_body b : lead1 (on (fun b => beq b "("%byte)) (e_body b).
Proof. destruct b; cbn [e_body]; nrm; l1. Qed.
Hint Resolve L_body : leaddb.

Lemma P_single_tail b s x : vopt (v_single_ext lv) x = true ->
  P (x <- opt (sp ;;; p_body_ext_1part) ;; ret (BSSingle b s x)) (e_tail e_single_ext x) (BSSingle b s x) rp.
Proof.
  intros V. destruct x; unfold e_tail, e_opt.
  - eapply P_bindl; [apply P_opt_some; nrm; pstep; apply P_p_body_ext_1part; exact V | ld | rt].
  - apply P_opt_skip; [rj | rt].
Qed.

Lemma P_p_body_f : forall b fuel n, body_height b <= fuel -> v_body_structure lv b = true ->
  body_fits n b = true -> P (p_body_f fuel (S n)) (e_body b) b any.
Proof.
  induction b as [b t s x | b s m x | b e c m x IH | l s x IH] using body_ind';
    intros fuel n Hf V Hn;
    (destruct fuel as [|fuel]; [cbn in Hf; lia |]);
    cbn [body_fits] in Hn; cbn [v_body_structure] in V; vs;
    cbn [p_body_f e_body]; unfold delimited, paren;
    (destruct n as [|n]; [discriminate |]); cbn [p_body_type_1part p_body_type_mpart].
  - pstep. eapply P_bind with (f1 := rp); [rewrite <- ?app_assoc | ld | rt]. cbn [alt]. apply P_orp_l.
    apply P_orp_bind_skip; [now apply Rj_msg_basic |].
    apply P_orp_bind_skip; [now apply Rj_text_basic |].
    replace (e_istring t ++ spc ++ e_istring s ++ spc ++ e_basic b ++ e_tail e_single_ext x)
      with ((e_istring t ++ spc ++ e_istring s ++ spc ++ e_basic b) ++ e_tail e_single_ext x)
      by now rewrite <- !app_assoc.
    eapply P_bind with (f1 := nd) (v := (b, SFBasic t s));
      [| apply leads_tail; reflexivity | now apply P_single_tail].
    unfold p_body_type_basic. rt.
  - pstep. eapply P_bind with (f1 := rp); [rewrite <- ?app_assoc | ld | rt]. cbn [alt]. apply P_orp_l.
    apply P_orp_bind_skip; [unfold p_body_type_msg, p_media_message; nrm; rj |].
    match goal with |- P _ (?a ++ ?b ++ ?c ++ ?d ++ ?e ++ ?f ++ ?g) _ _ =>
      replace (a ++ b ++ c ++ d ++ e ++ f ++ g) with ((a ++ b ++ c ++ d ++ e ++ f) ++ g)
        by now rewrite <- !app_assoc end.
    eapply P_orp_bind_here with (f1 := nd) (v := (b, SFText s m));
      [| apply leads_tail; reflexivity | now apply P_single_tail].
    unfold p_body_type_text, p_media_text. rt.
  - pstep. eapply P_bind with (f1 := rp); [rewrite <- ?app_assoc | ld | rt]. cbn [alt]. apply P_orp_l.
    match goal with |- P _ (?a ++ ?b ++ ?c ++ ?d ++ ?e ++ ?f ++ ?g ++ ?h ++ ?i) _ _ =>
      replace (a ++ b ++ c ++ d ++ e ++ f ++ g ++ h ++ i) with ((a ++ b ++ c ++ d ++ e ++ f ++ g ++ h) ++ i)
        by now rewrite <- !app_assoc end.
    eapply P_orp_bind_here with (f1 := nd) (v := (b, SFMessage e c m));
      [| apply leads_tail; reflexivity | now apply P_single_tail].
    unfold p_body_type_msg, p_media_message. nrm. do 6 pstep.
    eapply P_bind; [apply IH; [cbn in Hf; lia | assumption | assumption] | ld |]. rt.
  - pstep. eapply P_bind with (f1 := rp); [rewrite <- ?app_assoc | ld | rt]. cbn [alt]. apply P_orp_r.
    { destruct l as [|c l]; [discriminate |]. cbn [flat_map]. rewrite <- app_assoc. rj. }
    rewrite Forall_forall in IH. rewrite forallb_forall in *.
    eapply P_bind with (f1 := on (fun b => beq b bSP)) (v := l); [apply P_vec1; [assumption |] | reflexivity |].
    + eapply P_many1 with (e := e_body) (fe := any).
      * now destruct l.
      * intros c Hc. split; [| eapply lead1_weak; [| apply L_body]; reflexivity].
        apply IH; [assumption | | auto | cbn [pred] in *; auto].
        cbn [body_height] in Hf. pose proof (body_height_in c l Hc). lia.
      * reflexivity.
      * destruct fuel as [|fuel].
        { destruct l as [|c l]; [discriminate |]. cbn [body_height] in Hf.
          pose proof (body_height_in c (c :: l) (or_introl eq_refl)). pose proof (body_height_pos c). lia. }
        cbn [p_body_f]. rj.
    + nrm. pstep. eapply P_bind; [now apply P_p_string | apply leads_tail; reflexivity |]. cbv beta.
      destruct x; unfold e_tail, e_opt.
      * eapply P_bindl; [apply P_opt_some; nrm; pstep; now apply P_p_body_ext_mpart | ld | rt].
      * apply P_opt_skip; [rj | rt].
Qed.

Lemma P_p_body n b : v_body_structure lv b = true -> body_fits n b = true ->
  P (p_body (S n)) (e_body b) b any.
Proof.
  intros V Hn.
  assert (E : forall i, exists fuel, body_height b <= fuel /\ p_body (S n) i = p_body_f fuel (S n) i).
  { intros i. exists (Nat.max (body_height b) (S (length i))). split; [lia |].
    unfold p_body. apply agree_p_body_f. lia. }
  split.
  - intros s Hs. destruct (E (dump (e_body b) ++ s)) as (fuel & Hf & ->).
    now apply (P_full _ _ _ _ (P_p_body_f b fuel n Hf V Hn)).
  - intros pre is8 m d post Eo. destruct (E (upto_lit pre is8 m d)) as (fuel & Hf & ->).
    now apply (P_cut _ _ _ _ (P_p_body_f b fuel n Hf V Hn) _ _ _ _ post).
Qed.
Lemma P_p_body8 b : v_body lv b = true -> P (p_body 8) (e_body b) b any.
Proof. intros V. unfold v_body in V. vs. now apply P_p_body. Qed.
Hint Resolve P_p_body8 : rtdb.

(** *** Sections *)
Lemma P_p_header_list l : v1 (v_astring lv) l = true ->
  P p_header_list (W (bs "(") ++ joinsp e_astring l ++ W (bs ")")) l any.
Proof.
  intros V. pose proof (nonempty_v1 _ _ V). unfold p_header_list. nrm. apply P_vec1; [assumption |]. unfold delimited. pstep.
  eapply P_bind with (f1 := rp); [| ld | rt].
  eapply P_joinsp with (v := v_astring lv) (fe := nas); [exact V | exact P_p_astring | reflexivity | ld | rj].
Qed.
Definition rb : follow := on (fun b => beq b "]"%byte).
Lemma tg_dot i r a : tg "." i = ROk r a -> length r < length i.
Proof.
  destruct i as [|b i]; cbn; [discriminate |]. destruct (beq b "."%byte); [| discriminate].
  intros E. injection E as <- _. lia.
Qed.
Lemma P_part_bind {T} (q : list N -> parser T) l o v f : v_part l = true ->
  leads nd o f -> Rj (bind (tg ".") (fun _ => p_nz_number)) o f -> P (q l) o v f ->
  P (bind p_section_part q) (e_part l ++ o) v f.
Proof.
  intros V L R H. unfold v_part, v1 in V. vs. unfold p_section_part, e_part, vec1, vecn, expect.
  destruct l as [|x l]; [discriminate |]. cbn [forallb] in H1. vs.
  apply P_assoc. unfold sep_list1. apply P_assoc. rewrite join_cons, <- app_assoc.
  eapply P_bind with (f1 := nd); [now apply P_p_nz_number | |].
  { destruct l; [exact L | reflexivity]. }
  apply P_assoc.
  rewrite forallb_forall in H2.
  eapply P_sep_loop_bind' with (c := tt) (fe := nd);
    [discriminate | apply P_tgl; reflexivity | reflexivity | exact tg_dot | | exact L | exact R |].
  - intros y Hy. apply P_p_nz_number. auto.
  - pstep. apply P_retb. exact H.
Qed.
Lemma e_part_lead l : v_part l = true -> lead1 (on is_digit) (e_part l).
Proof.
  intros V. unfold v_part, v1 in V. vs. unfold e_part. apply lead1_join; [assumption |].
  intros x Hx. rewrite forallb_forall in H0. l1.
Qed.
Hint Resolve e_part_lead : leaddb.

Definition e_ps (s : part_specifier) : list op :=
  match s with
  | PSHeader => W (bs "HEADER") | PSText => W (bs "TEXT") | PSMime => W (bs "MIME")
  | PSHeaderFields l => W (bs "HEADER.FIELDS (") ++ joinsp e_astring l ++ W (bs ")")
  | PSHeaderFieldsNot l => W (bs "HEADER.FIELDS.NOT (") ++ joinsp e_astring l ++ W (bs ")")
  end.
Definition v_ps (s : part_specifier) : bool :=
  match s with PSHeaderFields l | PSHeaderFieldsNot l => v1 (v_astring lv) l | _ => true end.
Definition is_mime (s : part_specifier) : bool := match s with PSMime => true | _ => false end.
Lemma P_p_section_msgtext s : v_ps s = true -> is_mime s = false -> P p_section_msgtext (e_ps s) s rb.
Proof.
  intros V N. unfold p_section_msgtext. destruct s; try discriminate; cbn [e_ps v_ps] in *.
  - rt.
  - nrm. apply P_alt_skip; [rj |]. apply P_alt_here. repeat pstep.
    eapply P_weak; [| apply (P_p_header_list l V)]. sub.
  - nrm. apply P_alt_here. repeat pstep.
    eapply P_weak; [| apply (P_p_header_list l V)]. sub.
  - rt.
Qed.
Lemma P_p_section_text s : v_ps s = true -> P p_section_text (e_ps s) s rb.
Proof.
  intros V. unfold p_section_text. destruct (is_mime s) eqn:N.
  - destruct s; try discriminate. cbn [e_ps]. rt.
  - apply P_alt_here. now apply P_p_section_msgtext.
Qed.
Lemma P_sec_top s sec : v_ps s = true -> section_top s = Some sec ->
  P p_section_spec (e_ps s) sec rb.
Proof.
  intros V H. unfold p_section_spec. apply P_alt_here. eapply P_expect; [exact H |].
  apply P_p_section_msgtext; [exact V |]. now destruct s.
Qed.
Lemma P_sec_part p : v_part p = true -> P p_section_spec (e_part p) (SecPart p) rb.
Proof.
  intros V. unfold p_section_spec. apply P_alt_skip; [unfold p_section_msgtext; rj |].
  apply P_alt_here. rewrite <- (app_nil_r (e_part p)). apply P_part_bind; [exact V | ld | rj |].
  apply P_opt_skip; [rj | rt].
Qed.
Lemma P_sec_sub p s : v_part p = true -> v_ps s = true ->
  P p_section_spec (e_part p ++ W (bs ".") ++ e_ps s) (section_sub p (Some s)) rb.
Proof.
  intros V Vs. unfold p_section_spec. apply P_alt_skip; [unfold p_section_msgtext; rj |].
  apply P_alt_here. apply P_part_bind; [exact V | reflexivity | |].
  - destruct s; cbn [e_ps]; nrm; rj.
  - eapply P_bindl; [apply P_opt_some; nrm; pstep; now apply P_p_section_text | ld | rt].
Qed.
Lemma P_p_section_spec s : v_section lv s = true -> P p_section_spec (e_section s) s rb.
Proof.
  intros V. destruct s as [p|[p|]|[p|] l|[p|] l|[p|]|p]; cbn [v_section vopt] in V; vs; cbn [e_section e_part_dot app].
  - now apply P_sec_part.
  - rewrite <- app_assoc. now apply (P_sec_sub p PSHeader).
  - now apply (P_sec_top PSHeader).
  - rewrite <- app_assoc. now apply (P_sec_sub p (PSHeaderFields l)).
  - now apply (P_sec_top (PSHeaderFields l)).
  - rewrite <- app_assoc. now apply (P_sec_sub p (PSHeaderFieldsNot l)).
  - now apply (P_sec_top (PSHeaderFieldsNot l)).
  - rewrite <- app_assoc. now apply (P_sec_sub p PSText).
  - now apply (P_sec_top PSText).
  - now apply (P_sec_sub p PSMime).
Qed.
Lemma P_p_section s : vopt (v_section lv) s = true ->
  P p_section (W (bs "[") ++ e_opt e_section s ++ W (bs "]")) s any.
Proof.
  intros V. unfold p_section. nrm. unfold delimited. pstep. destruct s; cbn [vopt] in V.
  - eapply P_optb; [now apply P_p_section_spec | ld | rt].
  - cbn [app]. apply P_opt_skip; [unfold p_section_spec; rj | rt].
Qed.
Lemma P_p_section_binary l : forallb v_nz32 l = true ->
  P p_section_binary (W (bs "[") ++ e_part l ++ W (bs "]")) l any.
Proof.
  intros V. unfold p_section_binary. nrm. unfold delimited. pstep. unfold pmap. apply P_assoc.
  destruct l as [|x l].
  - change (e_part [] ++ ?x) with x. apply P_opt_skip; [rj | rt].
  - eapply P_optb with (v := x :: l) (f1 := rb); [| ld | rt].
    eapply P_ext with (q := bind p_section_part (fun l => ret l)).
    { intros i. unfold bind. now destruct (p_section_part i). }
    rewrite <- (app_nil_r (e_part (x :: l))). apply P_part_bind; [exact V | ld | rj | rt].
Qed.
Lemma P_p_partial p : v_partial p = true -> P p_partial (e_partial p) p any.
Proof. destruct p as [a b]. intros V. unfold v_partial in V. vs. unfold p_partial, e_partial. cbn [fst snd]. rt. Qed.
Lemma P_opt_partial {T} (q : option (N * N) -> parser T) p v : vopt v_partial p = true ->
  P (q p) [] v dl -> P (bind (opt p_partial) q) (e_opt e_partial p) v dl.
Proof.
  intros V H. destruct p; cbn [vopt] in V.
  - eapply P_bindl; [apply P_opt_some; now apply P_p_partial | ld | exact H].
  - apply P_opt_skip; [unfold p_partial; rj | exact H].
Qed.

Lemma P_section_bind {T} (q : option section -> parser T) s o v f : vopt (v_section lv) s = true ->
  P (q s) o v f -> P (bind p_section q) (B "["%byte :: e_opt e_section s ++ B "]"%byte :: o) v f.
Proof.
  intros V H. replace (B "["%byte :: e_opt e_section s ++ B "]"%byte :: o)
    with ((W (bs "[") ++ e_opt e_section s ++ W (bs "]")) ++ o) by (nrm; reflexivity).
  eapply P_bind; [now apply P_p_section | ld | exact H].
Qed.
Lemma P_section_binary_bind {T} (q : list N -> parser T) s o v f : forallb v_nz32 s = true ->
  P (q s) o v f -> P (bind p_section_binary q) (B "["%byte :: e_part s ++ B "]"%byte :: o) v f.
Proof.
  intros V H. replace (B "["%byte :: e_part s ++ B "]"%byte :: o)
    with ((W (bs "[") ++ e_part s ++ W (bs "]")) ++ o) by (nrm; reflexivity).
  eapply P_bind; [now apply P_p_section_binary | ld | exact H].
Qed.

Ltac sect := nrm; repeat pstep;
  first [apply P_section_bind | apply P_section_binary_bind]; [assumption |];
  first [apply P_opt_partial; [assumption |] | idtac]; rt.
Lemma P_p_fetch_att i : v_item_name lv i = true -> P p_fetch_att (e_item_name i) i dl.
Proof.
  intros V. unfold p_fetch_att.
  destruct i as [|s p [|]| | | | | | | | | |s p [|]|s|]; cbn [v_item_name] in V; vs; cbn [e_item_name];
    try solve [rt]; sect.
Qed.

(** [opt(separated_list1(sp, p))] *)
Lemma P_opt_joinsp {A} (p : parser A) (e : A -> list op) (v : A -> bool) l fe f :
  forallb v l = true -> (forall x, v x = true -> P p (e x) x fe) -> fe (Some bSP) = true ->
  leads fe [] f -> Rj sp [] f -> Rj p [] f ->
  exists o, dflt o = l /\ P (opt (sep_list1 sp p)) (joinsp e l) o f.
Proof.
  intros V H S L R R'. destruct l as [|x l].
  - exists None. split; [reflexivity |]. apply P_opt_none. now apply Rj_bind.
  - exists (Some (x :: l)). split; [reflexivity |]. apply P_opt_some.
    eapply P_joinsp; [exact V | exact H | exact S | exact L | exact R].
Qed.

Lemma P_p_msg_att_item m : v_message_data_item lv m = true ->
  P (alt [p_msg_att_dynamic; p_msg_att_static]) (e_message_data_item m) m dl.
Proof.
  intros V. unfold p_msg_att_dynamic, p_msg_att_static.
  destruct m as [b|s o d|b|e|l|d|n|n|n|n|n|s v|s n|n]; cbn [v_message_data_item] in V; vs; cbn [e_message_data_item];
    try discriminate;
    try solve [nrm; apply P_alt_skip; [rj |]; apply P_alt_here; rt].
  - nrm. apply P_alt_skip; [rj |]. apply P_alt_here.
    repeat pstep. apply (P_section_bind _ s); [assumption |].
    destruct o as [o|]; cbn [vopt app] in *.
    + change (B "<"%byte :: e_num o ++ [B ">"%byte] ++ ?x) with (B "<"%byte :: e_num o ++ B ">"%byte :: x) || idtac.
      match goal with |- P _ (B "<"%byte :: ?r) _ _ =>
        replace (B "<"%byte :: r) with ((B "<"%byte :: e_num o ++ [B ">"%byte]) ++ B bSP :: e_nstring d) end.
      2:{ nrm. reflexivity. }
      eapply P_optb with (f1 := any); [rt | ld | rt].
    + apply P_opt_skip; [rj | rt].
  - nrm. apply P_alt_here. pstep. unfold pmap. do 5 pstep. apply P_assoc.
    destruct (P_opt_joinsp p_flag_fetch e_flag_fetch (v_flag_fetch lv) l na rp) as (o & <- & Ho);
      [assumption | exact P_p_flag_fetch | reflexivity | ld | rj | rj |].
    eapply P_bind; [exact Ho | ld | rt].
  - nrm. apply P_alt_skip; [rj |]. apply P_alt_here.
    repeat pstep. apply P_section_binary_bind; [assumption |]. rt.
  - nrm. apply P_alt_skip; [rj |]. apply P_alt_here.
    repeat pstep. apply P_section_binary_bind; [assumption |]. rt.
Qed.
Lemma P_p_msg_att l : v1 (v_message_data_item lv) l = true ->
  P p_msg_att (paren (joinsp e_message_data_item l)) l any.
Proof.
  intros V. unfold p_msg_att. nrm. unfold delimited. pstep.
  eapply P_bind with (f1 := rp); [| ld | rt].
  apply P_vec1; [now apply nonempty_v1 in V |].
  eapply P_joinsp with (v := v_message_data_item lv) (fe := dl);
    [exact V | exact P_p_msg_att_item | reflexivity | ld | rj].
Qed.

(** *** Search keys *)
Lemma search_depth_in x l : In x l -> search_depth x <= list_max (map search_depth l).
Proof.
  intros Hx. induction l as [|y l IHl]; [destruct Hx |]. cbn. destruct Hx as [-> | Hx]; [lia |].
  specialize (IHl Hx). unfold list_max in IHl. lia.
Qed.
Lemma P_p_search_key n : forall k, v_search_tree lv k = true -> search_depth k <= n ->
  P (p_search_key n) (e_search_key k) k dl.
Proof.
  induction n as [|n IH]; intros k V D.
  { destruct k; cbn in D; lia. }
  cbn [p_search_key].
  destruct k; cbn [v_search_tree] in V; vs; cbn [e_search_key]; try solve [rt].
  - cbn [search_depth] in D. change (join spc e_search_key l) with (joinsp e_search_key l). nrm.
    repeat (apply P_alt_skip; [rj |]). apply P_alt_here. eapply P_pmap'; [reflexivity |].
    apply P_vec1; [assumption |]. unfold delimited. pstep.
    eapply P_bind with (f1 := rp); [| ld | rt].
    rewrite forallb_forall in H0.
    unfold joinsp, spc. change [B bSP] with (W [bSP]).
    eapply P_sep1 with (fe := dl); [now destruct l | discriminate | apply P_sp | reflexivity
      | | sub | rj].
    intros x Hx. apply IH; [auto |]. pose proof (search_depth_in x l Hx). lia.
  - cbn [search_depth] in D. rt. apply IH; [assumption | lia].
  - cbn [search_depth] in D. nrm. repeat pstep.
    eapply P_bind; [apply IH; [assumption | lia] | ld |]. pstep.
    eapply P_bindl; [apply IH; [assumption | lia] | ld |]. rt.
  - change (P ?p ?o ?v ?f) with (P p (e_search_key (KModSequence entry modseq)) v f).
    assert (K : forall a b o, e_search_key (KModSequence a b) = o -> exists o', o = W (bs "MODSEQ") ++ o').
    { intros a b o <-. cbn [e_search_key]. eexists. reflexivity. }
    pose proof (P_p_search_modsequence entry modseq H1 H0) as M.
    destruct (K entry modseq _ eq_refl) as (o' & Eo).
    rewrite Eo in M |- *. nrm. cbn [bs W map app] in M.
    repeat (apply P_alt_skip; [rj |]). apply P_alt_here. apply P_gate; [assumption |].
    eapply P_weak; [| exact M]. sub.
Qed.
Lemma P_p_search_key9 k : v_search_key lv k = true -> P (p_search_key 9) (e_search_key k) k dl.
Proof. intros V. unfold v_search_key in V. vs. apply P_p_search_key; [assumption |]. now apply Nat.leb_le. Qed.
Lemma P_p_search_keys l : v1 (v_search_key lv) l = true ->
  P p_search_keys (joinsp e_search_key l) l (on (fun b => beq b bCR || beq b bLF)).
Proof.
  intros V. unfold p_search_keys. apply P_vec1; [now apply nonempty_v1 in V |].
  eapply P_joinsp with (v := v_search_key lv) (fe := dl);
    [exact V | exact P_p_search_key9 | reflexivity | unfold dl; ld | rj].
Qed.
End Rt.

#[export] Hint Resolve P_p_nstring8 P_p_addresses P_p_envelope P_p_body_fld_param P_p_body8
  P_p_fetch_att P_p_msg_att P_p_search_keys : rtdb.
#[export] Hint Resolve L_nstring8 L_addresses L_envelope L_params L_body : leaddb.

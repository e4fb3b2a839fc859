(** Reading back greetings and responses. *)

From Verif Require Import Bytes Dec Features Nom Types Utf8 Conv SeqSet Base64 Date ParseCore ParseBody
  ParseCmd ParseResp EncodeCtx Encode Valid BytesFacts EncodeFacts ParserFacts QuotedFacts OkTac OkCore OkBody
  OkCmd OkResp ValidFacts RtFacts RtTac RtCore RtBody RtCmd.
Open Scope nat_scope.

Ltac sub ::=
  cbv beta;
  first [ intros ? H; exact H
        | exact (fun _ _ => eq_refl)
        | unfold some, nd, na, nas, nlc, rp, rb, dl, ns, nc, eol, nb64, non; apply on_impl; vm_compute; reflexivity ].

(** Capabilities with a fixed name. *)
Definition is_fixed (c : capability) : bool :=
  match c with
  | CapAuth _ | CapQuotaRes _ | CapSort (Some _) | CapThread _ | CapOther _ => false
  | _ => true
  end.
(** [capability_from] with the cheap tests first. *)
Definition capability_from' `{features} (s : atom_t) : capability :=
  let l := lowers s in
  if beqs l (bs "imap4rev1") then CapImap4Rev1
  else if beqs l (bs "logindisabled") then CapLoginDisabled
  else if beqs l (bs "starttls") && starttls then CapStartTls
  else if beqs l (bs "idle") then CapIdle
  else if beqs l (bs "mailbox-referrals") && ext_mailbox_referrals then CapMailboxReferrals
  else if beqs l (bs "login-referrals") && ext_login_referrals then CapLoginReferrals
  else if beqs l (bs "sasl-ir") then CapSaslIr
  else if beqs l (bs "enable") then CapEnable
  else if beqs l (bs "quota") then CapQuota
  else if beqs l (bs "quotaset") then CapQuotaSet
  else if beqs l (bs "literal+") then CapLiteralPlus
  else if beqs l (bs "literal-") then CapLiteralMinus
  else if beqs l (bs "move") then CapMove
  else if beqs l (bs "id") && ext_id then CapId
  else if beqs l (bs "sort") then CapSort None
  else if beqs l (bs "metadata") && ext_metadata then CapMetadata
  else if beqs l (bs "metadata-server") && ext_metadata then CapMetadataServer
  else if beqs l (bs "binary") then CapBinary
  else if beqs l (bs "unselect") then CapUnselect
  else if beqs l (bs "condstore") && ext_condstore_qresync then CapCondStore
  else if beqs l (bs "qresync") && ext_condstore_qresync then CapQResync
  else if beqs l (bs "uidplus") then CapUidPlus
  else if beqs l (bs "utf8=accept") && ext_utf8 then CapUtf8 Utf8Accept
  else if beqs l (bs "utf8=only") && ext_utf8 then CapUtf8 Utf8Only
  else match capability_eq s with
       | Some c => c
       | None => CapOther s
       end.
Lemma capability_from_alt `{features} s : capability_from s = capability_from' s.
Proof.
  unfold capability_from, capability_from'. cbv zeta.
  rewrite (andb_comm starttls), (andb_comm ext_mailbox_referrals), (andb_comm ext_login_referrals),
    (andb_comm ext_id), !(andb_comm ext_metadata), !(andb_comm ext_condstore_qresync),
    !(andb_comm ext_utf8). reflexivity.
Qed.
Lemma cap_fixed F c : is_fixed c = true -> @v_capability F LExact c = true ->
  @capability_from F (capability_str c) = c.
Proof.
  intros Fx V. rewrite capability_from_alt. destruct F.
  destruct c as [|m| | | | | | | |[]| |r| | | | | | |[a|]|a| | | | | | | |[]|a]; try discriminate Fx;
    vm_compute in V; try discriminate V; subst; try (vm_compute; reflexivity).
  match type of V with (if ?b then _ else _) = _ => destruct b; discriminate V end.
Qed.

Section Rt.
Context {F : features}.
Notation lv := LExact.

(** *** Capabilities *)
Lemma sort_from_str a : v_sort_algorithm a = true ->
  atom_ok (sort_algorithm_str a) = true /\ sort_algorithm_from (sort_algorithm_str a) = a.
Proof.
  intros V. destruct a as [|a]; cbn [v_sort_algorithm sort_algorithm_str] in *.
  2:{ vs. split; [assumption |]. revert H0. unfold sort_algorithm_from. cbv zeta. chain; easy. }
  split; reflexivity.
Qed.
Lemma atom_app x y : forallb is_atom_char x = true -> atom_ok y = true -> atom_ok (x ++ y) = true.
Proof.
  intros Hx Hy. apply ne_forallb in Hy as [N Hy]. unfold atom_ok.
  destruct (x ++ y) eqn:E; [apply app_eq_nil in E as [_ ->]; easy |].
  rewrite <- E, forallb_app, Hx, Hy. reflexivity.
Qed.
Lemma lowers_app x y : lowers (x ++ y) = lowers x ++ lowers y.
Proof. apply map_app. Qed.
Lemma atom_lower s : atom_ok s = true -> atom_ok (lowers s) = true.
Proof.
  intros H. apply ne_forallb in H as [N H]. unfold atom_ok.
  destruct (lowers s) eqn:E; [now destruct s |]. rewrite <- E. clear E N.
  unfold lowers. induction s as [|x s IH]; [reflexivity |]. cbn in *. vs.
  rewrite IH by assumption. rewrite andb_true_r. revert x H. byte_fact.
Qed.
Lemma uppers_lowers s : uppers (lowers s) = uppers s.
Proof.
  unfold uppers, lowers. rewrite map_map. apply map_ext. intros b. apply beq_eq.
  revert b. apply byte_forall. vm_compute. reflexivity.
Qed.
Lemma resource_lower r : v_resource r = true ->
  match r with ROther a => beqs (lowers a) a | _ => true end = true ->
  resource_from (lowers (resource_str r)) = r.
Proof.
  intros V L. destruct r as [| | | |a]; try reflexivity.
  cbn [resource_str]. apply beqs_eq in L. rewrite L. now apply (resource_from_str (ROther a)).
Qed.
Lemma split_eq x y : forallb (fun b => negb (beq b "="%byte)) x = true ->
  split_once1 "="%byte (x ++ "="%byte :: y) = Some (x, y).
Proof.
  induction x as [|b x IH]; intros H; [reflexivity |]. cbn in *. vs. rewrite H.
  now rewrite IH.
Qed.
Lemma cap_eq_not_other s c : capability_eq s = Some c -> is_cap_other c = false.
Proof.
  unfold capability_eq. destruct (split_once1 _ s) as [[l r]|]; [| discriminate]. cbv zeta.
  destruct (beqs (lowers l) (bs "auth")); [destruct (atom_ok r); congruence || now intros [= <-] |].
  destruct (beqs (lowers l) (bs "compress")).
  { destruct (atom_ok r); [| discriminate]. unfold option_map.
    destruct (compression_try_from r); [| discriminate]. now intros [= <-]. }
  destruct (beqs (lowers l) (bs "quota")).
  { destruct (split_once _ _) as [[? ?]|]; [| discriminate].
    destruct (atom_ok _); [| discriminate]. now intros [= <-]. }
  destruct (beqs (lowers l) (bs "sort")); [destruct (atom_ok r); congruence || now intros [= <-] |].
  destruct (beqs (lowers l) (bs "thread")); [destruct (atom_ok r); congruence || now intros [= <-] |].
  discriminate.
Qed.
(** A name with "=" is not one of the fixed names (but the two UTF8 ones). *)
Lemma capability_from_eq x y c : forallb (fun b => negb (beq b "="%byte)) x = true ->
  eqi x (bs "utf8") = false ->
  capability_eq (x ++ "="%byte :: y) = Some c -> capability_from (x ++ "="%byte :: y) = c.
Proof.
  intros Nx Nu E. unfold capability_from. rewrite E. cbv zeta. rewrite lowers_app.
  change (lowers ("="%byte :: y)) with ("="%byte :: lowers y).
  assert (K : forall n, forallb (fun b => negb (beq b "="%byte)) n = true ->
            beqs (lowers x ++ "="%byte :: lowers y) n = false).
  { intros n. generalize (lowers x). induction n as [|b n IH]; intros l Hn; [now destruct l |].
    cbn [forallb] in Hn. vs. destruct l as [|a l]; cbn [app].
    - change (beq "="%byte b && beqs (lowers y) n = false). rewrite beq_sym. now rewrite H.
    - change (beq a b && beqs (l ++ "="%byte :: lowers y) n = false).
      rewrite IH by assumption. apply andb_false_r. }
  rewrite !K by reflexivity. rewrite !andb_false_r.
  assert (U : forall n, beqs (lowers x ++ "="%byte :: lowers y) (bs "utf8=" ++ n) = false).
  { intros n. destruct (beqs (lowers x ++ "="%byte :: lowers y) (bs "utf8=" ++ n)) eqn:B; [| reflexivity].
    exfalso. apply beqs_eq in B.
    assert (Nl : forallb (fun b => negb (beq b "="%byte)) (lowers x) = true).
    { unfold lowers. rewrite forallb_forall in *. intros b Hb. apply in_map_iff in Hb as (a & <- & Ha).
      specialize (Nx a Ha). clear Ha. revert a Nx. byte_fact. }
    pose proof (split_eq (lowers x) (lowers y) Nl) as S1. rewrite B in S1.
    change (bs "utf8=" ++ n) with (bs "utf8" ++ "="%byte :: n) in S1.
    rewrite split_eq in S1 by reflexivity. injection S1 as S1 _.
    unfold eqi in Nu. rewrite <- S1 in Nu. vm_compute in Nu. discriminate. }
  change (bs "utf8=accept") with (bs "utf8=" ++ bs "accept").
  change (bs "utf8=only") with (bs "utf8=" ++ bs "only").
  rewrite !U, !andb_false_r. reflexivity.
Qed.
Lemma cap_auth m : v_auth_mechanism lv m = true -> capability_from (bs "AUTH=" ++ auth_mechanism_str m) = CapAuth m.
Proof.
  intros V. pose proof (auth_from_str m V) as [A B].
  change (bs "AUTH=" ++ ?y) with (bs "AUTH" ++ "="%byte :: y).
  apply capability_from_eq; [reflexivity | reflexivity |].
  unfold capability_eq. rewrite split_eq by reflexivity. names. now rewrite A, B.
Qed.
Lemma cap_res r : v_resource r = true ->
  match r with ROther a => beqs (lowers a) a | _ => true end = true ->
  capability_from (bs "QUOTA=RES-" ++ resource_str r) = CapQuotaRes r.
Proof.
  intros V L. pose proof (resource_from_str r V) as [A B].
  change (bs "QUOTA=RES-" ++ ?y) with (bs "QUOTA" ++ "="%byte :: (bs "RES-" ++ y)).
  apply capability_from_eq; [reflexivity | reflexivity |].
  unfold capability_eq. rewrite split_eq by reflexivity. names.
  rewrite lowers_app. change (lowers (bs "RES-")) with (bs "res-").
  pose proof (atom_lower _ A) as A'. pose proof (resource_lower r V L) as B'.
  generalize dependent (lowers (resource_str r)). intros x A' B'.
  change (split_once (bs "res-") (bs "res-" ++ x)) with (Some (@nil byte, x)). cbv iota beta.
  now rewrite A', B'.
Qed.
Lemma cap_sort a : v_sort_algorithm a = true ->
  capability_from (bs "SORT=" ++ sort_algorithm_str a) = CapSort (Some a).
Proof.
  intros V. pose proof (sort_from_str a V) as [A B].
  change (bs "SORT=" ++ ?y) with (bs "SORT" ++ "="%byte :: y).
  apply capability_from_eq; [reflexivity | reflexivity |].
  unfold capability_eq. rewrite split_eq by reflexivity. names. now rewrite A, B.
Qed.
Lemma cap_thread a : v_threading_algorithm a = true ->
  capability_from (bs "THREAD=" ++ threading_algorithm_str a) = CapThread a.
Proof.
  intros V. pose proof (threading_from_str a V) as [A B].
  change (bs "THREAD=" ++ ?y) with (bs "THREAD" ++ "="%byte :: y).
  apply capability_from_eq; [reflexivity | reflexivity |].
  unfold capability_eq. rewrite split_eq by reflexivity. names. now rewrite A, B.
Qed.
Lemma cap_other a : is_cap_other (capability_from a) = true -> capability_from a = CapOther a.
Proof.
  unfold capability_from. cbv zeta. chain; try easy.
  destruct (capability_eq a) eqn:E; [| easy]. apply cap_eq_not_other in E. congruence.
Qed.
Lemma capability_from_str c : v_capability lv c = true ->
  atom_ok (capability_str c) = true /\ capability_from (capability_str c) = c.
Proof.
  intros V. split.
  - destruct c as [|m| | | | | | | |[]| |r| | | | | | |[a|]|a| | | | | | | |[]|a]; try reflexivity;
      cbn [v_capability capability_str only_rt] in *; vs.
    + apply (atom_app (bs "AUTH=")); [reflexivity |]. now apply auth_from_str.
    + apply (atom_app (bs "QUOTA=RES-")); [reflexivity |]. now apply resource_from_str.
    + apply (atom_app (bs "SORT=")); [reflexivity |]. now apply sort_from_str.
    + apply (atom_app (bs "THREAD=")); [reflexivity |]. now apply threading_from_str.
    + assumption.
  - destruct (is_fixed c) eqn:Fx; [now apply cap_fixed |].
    destruct c as [|m| | | | | | | |[]| |r| | | | | | |[a|]|a| | | | | | | |k|a]; try discriminate Fx;
      cbn [v_capability capability_str only_rt] in *; vs.
    + now apply cap_auth.
    + now apply cap_res.
    + now apply cap_sort.
    + now apply cap_thread.
    + now apply cap_other.
Qed.
Lemma P_p_capability c : v_capability lv c = true -> P p_capability (e_capability c) c na.
Proof. intros V. apply P_from. now apply capability_from_str. Qed.
Lemma L_capability c : v_capability lv c = true -> lead1 (on is_atom_char) (e_capability c).
Proof. intros V. apply L_atom. now apply capability_from_str. Qed.
Hint Resolve P_p_capability : rtdb.
Hint Resolve L_capability : leaddb.

(** *** Delimiters, namespaces, metadata, quota *)
Lemma P_p_delimiter d : vopt quoted_char_ok d = true -> P p_delimiter (e_delimiter d) d any.
Proof.
  intros V. destruct d as [b|]; cbn [vopt e_delimiter] in *.
  - unfold p_delimiter. apply P_alt_here. eapply P_pmap'; [reflexivity |]. unfold delimited.
    apply (P_char bDQ). eapply P_bind with (v := b) (f1 := any); [| reflexivity | rt].
    unfold p_quoted_char. eapply P_expect with (v := b); [now rewrite V |]. unfold e_quoted_char.
    assert (K : forall c, is_quoted_specials c = true -> P (alt [expect (take_while_m_n 1 1 is_any_text_char_except_quoted_specials) one_byte;
          expect (tg "\" ;;; take_while_m_n 1 1 is_quoted_specials) one_byte]) (W [bBS; c]) c any).
    { intros c Hc. apply P_alt_skip; [cbn [W map]; rj |]. apply P_alt_here.
      eapply P_expect with (v := [c]); [reflexivity |]. eapply P_tg; [reflexivity |].
      apply (P_twmn 1 [c]); [cbn; lia |]. cbn [forallb]. now rewrite Hc. }
    destruct (beq b bBS) eqn:E1; [apply beq_eq in E1; subst b; now apply K |].
    destruct (beq b bDQ) eqn:E2; [apply beq_eq in E2; subst b; now apply K |].
    apply P_alt_here. eapply P_expect with (v := [b]); [reflexivity |].
    apply (P_twmn 1 [b]); [cbn; lia |]. clear K. revert V E1 E2. destruct b; intros; try discriminate; reflexivity.
  - unfold p_delimiter, p_nil. rt.
Qed.
Lemma L_delimiter d : lead1 (on is_nstr1) (e_delimiter d).
Proof. destruct d; cbn [e_delimiter]; nrm; l1. Qed.
Hint Resolve P_p_delimiter : rtdb.
Hint Resolve L_delimiter : leaddb.

Lemma P_p_namespace_ext e : v_namespace_ext lv e = true -> P p_namespace_ext (e_namespace_ext e) e any.
Proof.
  destruct e as [k l]. unfold v_namespace_ext, p_namespace_ext, e_namespace_ext. cbn [ne_key ne_values].
  intros V. vs. nrm. pstep. eapply P_bind; [tok | ld |]. pstep.
  eapply P_bindl with (v := l) (f1 := any); [| ld | rt].
  apply P_vec1; [eapply nonempty_v1; eassumption |]. unfold delimited. repeat pstep.
  eapply P_bind with (f1 := rp) (v := l); [| ld | rt].
  eapply P_joinsp with (fe := some); [eassumption | exact P_p_string | reflexivity | ld | rj].
Qed.

Lemma L_namespace_ext e : lead1 any (e_namespace_ext e).
Proof. unfold e_namespace_ext. nrm. l1. Qed.
Lemma P_p_namespace_descr n : v_namespace lv n = true -> P p_namespace_descr (e_namespace n) n any.
Proof.
  destruct n as [p d l]. unfold v_namespace, p_namespace_descr, e_namespace.
  cbn [ns_prefix ns_delimiter ns_extensions]. intros V. vs. rewrite forallb_forall in H0.
  nrm. pstep. eapply P_bind; [tok | ld |]. pstep. eapply P_bind; [tok | ld |].
  eapply P_many0_bind with (fe := any); [| reflexivity | rj | rt].
  intros x Hx. split; [now apply P_p_namespace_ext, H0 | apply L_namespace_ext].
Qed.
Lemma L_namespace n : lead1 any (e_namespace n).
Proof. unfold e_namespace. nrm. l1. Qed.
Lemma P_p_namespace l : forallb (v_namespace lv) l = true -> P p_namespace (e_namespaces l) l any.
Proof.
  intros V. rewrite forallb_forall in V. unfold p_namespace, p_nil.
  destruct l as [|x l]; cbn [e_namespaces]; [rt |].
  remember (x :: l) as l' eqn:E. nrm. apply P_alt_skip; [rj |]. apply P_alt_here. unfold delimited. pstep.
  eapply P_bind with (f1 := rp); [| ld | rt].
  eapply P_many1 with (fe := any); [now subst l' | | reflexivity | rj].
  intros y Hy. split; [now apply P_p_namespace_descr, V | apply L_namespace].
Qed.
Lemma L_namespaces l : lead1 (on (fun b => beq b "("%byte || beq b "N"%byte)) (e_namespaces l).
Proof. destruct l; unfold e_namespaces; nrm; l1. Qed.
Hint Resolve P_p_namespace : rtdb.
Hint Resolve L_namespaces : leaddb.

Lemma P_p_quota_sp {T} (q : unit -> parser T) o v f : Rj sp o f -> P (q tt) o v f ->
  P (bind p_quota_sp q) (B bSP :: o) v f.
Proof.
  intros R H. unfold p_quota_sp. destruct quirk_excessive_space_quota_resource; unfold value.
  - unfold many1. apply P_assoc, P_assoc. apply (P_char bSP).
    apply P_assoc. apply (P_many0_bind sp (fun _ => []) [] _ o v any f); [easy | apply leads_any | exact R |].
    now apply P_retb, P_retb.
  - apply P_assoc, (P_char bSP), P_retb, H.
Qed.
Lemma P_p_quota_resource q : v_quota_get q = true -> P p_quota_resource (e_quota_get q) q nd.
Proof.
  destruct q as [r u l]. unfold v_quota_get, p_quota_resource, e_quota_get.
  cbn [qg_resource qg_usage qg_limit]. intros V. vs. nrm.
  eapply P_bind; [tok | ld |]. apply P_p_quota_sp; [rj |].
  eapply P_bind; [tok | ld |]. apply P_p_quota_sp; [rj |]. rt.
Qed.

(** *** Threads *)
Lemma P_many_S {A} (p : parser A) m o1 o2 z k f1 f : P p o1 z f1 -> lead1 f1 o1 -> leads f1 o2 f ->
  P (many_m m p) o2 k f -> P (many_m (S m) p) (o1 ++ o2) (z :: k) f.
Proof.
  intros [p1 p2] L1 L [h1 h2]. cbn [many_m]. split.
  - intros s Hs. rewrite dump_app, <- app_assoc.
    rewrite p1 by (eapply leads_full; eassumption).
    destruct (Nat.ltb_spec (length (dump o2 ++ s)) (length (dump o1 ++ dump o2 ++ s))) as [_|Hl].
    + now rewrite h1.
    + pose proof (lead1_len _ _ (dump o2 ++ s) L1). lia.
  - intros pre is8 md d post E. destruct (cut_app _ _ _ _ _ _ _ E) as [[post' E']|[pre' [-> E']]].
    + erewrite p2 by exact E'. reflexivity.
    + unfold upto_lit. rewrite dump_app, <- app_assoc.
      change (dump pre' ++ _) with (upto_lit pre' is8 md d).
      rewrite p1 by (eapply leads_cut; eassumption).
      destruct (Nat.ltb_spec (length (upto_lit pre' is8 md d)) (length (dump o1 ++ upto_lit pre' is8 md d))) as [_|Hl].
      * erewrite h2 by exact E'. reflexivity.
      * pose proof (lead1_len _ _ (upto_lit pre' is8 md d) L1). lia.
Qed.
Lemma P_many2 {A} (p : parser A) (e : A -> list op) l fe f : atleast2 l = true ->
  (forall x, In x l -> P p (e x) x fe /\ lead1 fe (e x)) ->
  (forall b, f b = true -> fe b = true) -> Rj p [] f ->
  P (many_m 2 p) (flat_map e l) l f.
Proof.
  intros N He L R. destruct l as [|x [|y l]]; try discriminate. cbn [flat_map].
  destruct (He x (or_introl eq_refl)) as [Px Lx]. destruct (He y (or_intror (or_introl eq_refl))) as [Py Ly].
  eapply P_many_S; [exact Px | exact Lx | now apply lead1_leads |].
  eapply P_many_S; [exact Py | exact Ly | |].
  - destruct l as [|z l]; [exact L |]. cbn [flat_map]. apply lead1_leads, He. right; right; now left.
  - apply P_many0 with (fe := fe); [| exact L | exact R]. intros z Hz. apply He. now right; right.
Qed.
Lemma L_thread t : lead1 any (e_thread t).
Proof. destruct t; cbn [e_thread]; nrm; l1. Qed.
Lemma thread_depth_in x l : In x l -> thread_depth x <= list_max (map thread_depth l).
Proof.
  intros H. assert (K := proj1 (list_max_le (map thread_depth l) (list_max (map thread_depth l))) (le_n _)).
  rewrite Forall_forall in K. apply K. now apply in_map.
Qed.
Lemma sp_len i r a : sp i = ROk r a -> length r < length i.
Proof. destruct i as [|b i]; [discriminate |]. unfold sp, char, sat. destruct (beq _ _); [| discriminate]. intros [= <- _]. cbn. lia. Qed.
Lemma P_nums_bind {T} (q : list N -> parser T) l o v f : v1 v_nz32 l = true ->
  leads nd o f -> Rj (bind sp (fun _ => p_nz_number)) o f -> P (q l) o v f ->
  P (bind (vec1 (sep_list1 sp p_nz_number)) q) (joinsp e_num l ++ o) v f.
Proof.
  intros V L R H. unfold v1 in V. vs. unfold vec1, vecn, expect.
  destruct l as [|x l]; [discriminate |]. cbn [forallb] in H1. vs.
  apply P_assoc. unfold sep_list1. apply P_assoc. unfold joinsp. rewrite join_cons, <- app_assoc.
  eapply P_bind with (f1 := nd); [now apply P_p_nz_number | |].
  { destruct l; [exact L | reflexivity]. }
  apply P_assoc.
  rewrite forallb_forall in H2. unfold spc. change [B bSP] with (W [bSP]).
  eapply P_sep_loop_bind' with (c := bSP) (fe := nd);
    [discriminate | apply P_sp | reflexivity | exact sp_len | | exact L | exact R |].
  - intros y Hy. apply P_p_nz_number. auto.
  - pstep. apply P_retb. exact H.
Qed.
Lemma thread_depth_pos t : 1 <= thread_depth t.
Proof. destruct t as [p [l|]|l]; cbn; lia. Qed.
Lemma P_p_thread_list n : forall t, v_thread_tree t = true -> thread_depth t <= n ->
  P (p_thread_list n) (e_thread t) t any.
Proof.
  induction n as [|n IH]; intros t V D.
  { destruct t as [p [l|]|l]; cbn in D; lia. }
  assert (K : forall l, atleast2 l = true -> forallb v_thread_tree l = true ->
    list_max (map thread_depth l) <= n -> P (many_m 2 (p_thread_list n)) (flat_map e_thread l) l rp).
  { intros l A2 Vl Dl. rewrite forallb_forall in Vl. eapply P_many2 with (fe := any); [exact A2 | | reflexivity | ].
    - intros x Hx. split; [| apply L_thread]. apply IH; [now apply Vl |].
      apply thread_depth_in in Hx. lia.
    - destruct n; cbn [p_thread_list]; [| rj]. destruct l as [|y l]; [discriminate |].
      pose proof (thread_depth_in y (y :: l) (or_introl eq_refl)). pose proof (thread_depth_pos y). lia. }
  cbn [p_thread_list]. destruct t as [p [l|]|l]; cbn [v_thread_tree thread_depth e_thread] in *; vs; nrm; unfold delimited; pstep.
  - change (B bSP :: flat_map e_thread l ++ ?y) with ((B bSP :: flat_map e_thread l) ++ y). rewrite app_assoc.
    eapply P_bind with (f1 := rp); [| ld | rt]. apply P_alt_here.
    apply P_nums_bind; [assumption | ld | |].
    + assert (E : exists o, flat_map e_thread l = B "("%byte :: o).
      { destruct l as [|y l]; [discriminate |]. cbn [flat_map]. destruct y; cbn [e_thread]; nrm; eauto. }
      destruct E as [o ->]. rj.
    + eapply P_bindl; [| ld | rt]. apply P_opt_some. apply P_vec2; [assumption |]. pstep. apply K; [assumption .. | lia].
  - eapply P_bind with (f1 := rp); [| ld | rt]. apply P_alt_here. apply P_app_nil.
    apply P_nums_bind; [assumption | ld | rj |].
    apply P_opt_skip; [rj | rt].
  - eapply P_bind with (f1 := rp); [| ld | rt].
    apply P_alt_skip; [| apply P_alt_here].
    + assert (E : exists o, flat_map e_thread l = B "("%byte :: o).
      { destruct l as [|y l]; [discriminate |]. cbn [flat_map]. destruct y; cbn [e_thread]; nrm; eauto. }
      destruct E as [o ->]. rj.
    + eapply P_pmap'; [reflexivity |]. apply P_vec2; [assumption |]. apply K; [assumption .. | lia].
Qed.
Lemma P_p_thread t : v_thread lv t = true -> P (p_thread_list 8) (e_thread t) t any.
Proof. unfold v_thread. cbn [only_rt]. intros V. vs. apply P_p_thread_list; [assumption |]. now apply Nat.leb_le. Qed.

(** *** UIDPLUS *)
Lemma P_p_uid_element u : v_uid_element u = true ->
  P (alt [p_uid_range; pmap UESingle p_nz_number]) (e_uid_element u) u (non (fun b => is_digit b || beq b ":"%byte)).
Proof.
  unfold p_uid_range. destruct u as [n|a b]; cbn [v_uid_element e_uid_element]; intros V; vs.
  - apply P_alt_skip; [| rt]. apply Rj_app_nil.
    eapply Rj_seq with (f1 := nd); [now apply P_p_nz_number | cbn [leads]; sub |]. rj.
  - nrm. apply P_alt_here. rt.
Qed.
Lemma P_p_uid_set s : v_uid_set s = true ->
  P p_uid_set (e_uid_set s) s (non (fun b => is_digit b || beq b ":"%byte || beq b ","%byte)).
Proof.
  unfold v_uid_set, v1. intros V. vs. rewrite forallb_forall in H0. unfold p_uid_set, e_uid_set.
  apply P_vec1; [assumption |].
  eapply P_sep1 with (so := bs ",") (c := tt); [now destruct s | discriminate | apply P_tgl; reflexivity
    | | intros x Hx; now apply P_p_uid_element, H0 | | ].
  - reflexivity.
  - sub.
  - rj.
Qed.
Lemma L_uid_set s : v_uid_set s = true -> lead1 (on is_digit) (e_uid_set s).
Proof.
  unfold v_uid_set, v1. intros V. vs. unfold e_uid_set. apply lead1_join; [assumption |].
  intros [n|a b] _; cbn [e_uid_element]; l1.
Qed.

(** *** Untagged data *)
(** What [e_data] writes between the asterisk and the end of the line. *)
Definition db (d : data) : list op :=
  match d with
  | DCapability l => W (bs "CAPABILITY ") ++ joinsp e_capability l
  | DList items delim m =>
    W (bs "LIST ") ++ paren (joinsp e_flag_name items) ++ spc ++ e_delimiter delim ++ spc
      ++ e_mailbox m
  | DLsub items delim m =>
    W (bs "LSUB ") ++ paren (joinsp e_flag_name items) ++ spc ++ e_delimiter delim ++ spc
      ++ e_mailbox m
  | DStatus m items => W (bs "STATUS ") ++ e_mailbox m ++ spc ++ paren (joinsp e_status_item items)
  | DSearch l ms => W (bs "SEARCH") ++ e_nums l ++ e_modseq ms
  | DSort l ms => W (bs "SORT") ++ e_nums l ++ e_modseq ms
  | DThread l => W (bs "THREAD") ++ match l with [] => [] | _ => spc ++ flat_map e_thread l end
  | DFlags l => W (bs "FLAGS ") ++ paren (joinsp e_flag l)
  | DExists n => e_num n ++ W (bs " EXISTS")
  | DRecent n => e_num n ++ W (bs " RECENT")
  | DExpunge n => e_num n ++ W (bs " EXPUNGE")
  | DFetch n items => e_num n ++ W (bs " FETCH ") ++ paren (joinsp e_message_data_item items)
  | DEnabled l => W (bs "ENABLED") ++ flat_map (fun c => spc ++ e_capability_enable c) l
  | DQuota r l => W (bs "QUOTA ") ++ e_astring r ++ spc ++ paren (joinsp e_quota_get l)
  | DQuotaRoot m l => W (bs "QUOTAROOT ") ++ e_mailbox m ++ flat_map (fun r => spc ++ e_astring r) l
  | DId p => W (bs "ID ") ++ e_id_params p
  | DMetadata m i => W (bs "METADATA ") ++ e_mailbox m ++ spc ++ e_metadata_response i
  | DVanished earlier s =>
    W (bs "VANISHED") ++ (if earlier then W (bs " (EARLIER)") else []) ++ spc ++ e_sequence_set s
  | DNamespace p o s =>
    W (bs "NAMESPACE ") ++ e_namespaces p ++ spc ++ e_namespaces o ++ spc ++ e_namespaces s
  end.
Lemma e_data_db d : e_data d = W (bs "* ") ++ db d ++ e_crlf.
Proof. destruct d; unfold e_data, db; rewrite <- ?app_assoc; reflexivity. Qed.

Lemma e_nums_flat l : e_nums l = flat_map (fun n => spc ++ e_num n) l.
Proof. destruct l as [|x l]; [reflexivity |]. cbn [e_nums flat_map]. unfold joinsp. now rewrite join_cons, app_assoc. Qed.
Lemma P_nums_modseq {T} (q : list N -> option N -> parser T) l ms w :
  forallb v_nz32 l = true -> match ms with Some n => ext_condstore_qresync && v_nz64 n | None => true end = true ->
  P (q l ms) [] w eol ->
  P (bind p_nums (fun l => bind p_opt_modseq (fun m => q l m))) (e_nums l ++ e_modseq ms) w eol.
Proof.
  intros Vl Vm H. rewrite e_nums_flat. unfold p_nums. rewrite forallb_forall in Vl.
  eapply P_many0_bind with (fe := nd).
  - intros x Hx. split; [specialize (Vl x Hx); nrm; rt | nrm; l1].
  - destruct ms; cbn [e_modseq e_opt]; nrm; ld.
  - destruct ms; cbn [e_modseq e_opt]; nrm; rj.
  - unfold p_opt_modseq. destruct ms as [n|]; vs.
    + rewrite H0. cbn [e_modseq e_opt]. apply P_app_nil. eapply P_optb with (v := n) (f1 := any); [| ld | exact H].
      unfold p_search_sort_mod_seq. nrm. rt.
    + cbn [e_modseq e_opt]. destruct ext_condstore_qresync; [| now apply P_retb]. apply P_opt_skip; [rj | exact H].
Qed.
Lemma P_p_opt_sp {T} b (q : unit -> parser T) w : P (q tt) [] w eol -> P (bind (p_opt_sp b) q) [] w eol.
Proof.
  intros H. unfold p_opt_sp. destruct b; [| now apply P_retb]. unfold value. apply P_assoc.
  apply P_opt_skip; [rj |]. now apply P_retb.
Qed.
Lemma P_capabilities_data l : v1 (v_capability lv) l = true ->
  forall f, (f = eol \/ f = rb) ->
  P p_capability_data (W (bs "CAPABILITY ") ++ joinsp e_capability l) l f.
Proof.
  intros V f Hf. unfold p_capability_data. apply P_vec1; [now apply nonempty_v1 in V |]. nrm. pstep.
  unfold terminated, p_opt_sp. destruct quirk_trailing_space_capability.
  - eapply P_bindl with (f1 := f); [| ld |].
    + eapply P_joinsp with (fe := na); [exact V | exact P_p_capability | reflexivity | destruct Hf; subst f; ld | destruct Hf; subst f; rj].
    + unfold value. apply P_assoc, P_opt_skip; [destruct Hf; subst f; rj | rt].
  - eapply P_bindl with (f1 := f); [| ld | rt].
    eapply P_joinsp with (fe := na); [exact V | exact P_p_capability | reflexivity | destruct Hf; subst f; ld | destruct Hf; subst f; rj].
Qed.
Lemma Rj_num {A} (g : N -> A) n k o f : v_u32 n = true -> leads nd o f -> Rj (tag_no_case k) o f ->
  Rj (pmap g (terminated p_number (tag_no_case k))) (e_num n ++ o) f.
Proof.
  intros V L R. apply Rj_bind. unfold terminated.
  eapply Rj_seq with (f1 := nd); [now apply P_p_number | exact L | now apply Rj_bind].
Qed.
Lemma P_p_mailbox_list items d m : forallb v_flag_name items = true -> vopt quoted_char_ok d = true ->
  v_mailbox lv m = true ->
  P p_mailbox_list (paren (joinsp e_flag_name items) ++ spc ++ e_delimiter d ++ spc ++ e_mailbox m)
    (items, d, m) nas.
Proof.
  intros V1 V2 V3. unfold p_mailbox_list. nrm. unfold delimited. pstep. pstep.
  assert (K : forall fl, dflt fl = items -> P ((fun fl => sp ;;; d <- p_delimiter ;; sp ;;; m <- p_mailbox ;; ret (dflt fl, d, m)) fl)
    (B bSP :: e_delimiter d ++ B bSP :: e_mailbox m) (items, d, m) nas).
  { intros fl <-. rt. }
  destruct items as [|x l].
  - cbn [joinsp join app]. apply P_assoc, P_opt_skip; [rj |]. pstep. pstep. exact (K None eq_refl).
  - apply P_assoc. eapply P_optb with (v := x :: l) (f1 := rp); [| ld |].
    + apply P_p_mbx_list_flags. exact V1.
    + pstep. pstep. exact (K (Some (x :: l)) eq_refl).
Qed.
Lemma L_metadata_response r : v_metadata_response lv r = true ->
  lead1 (on (fun b => is_astr1 b || beq b "("%byte)) (e_metadata_response r).
Proof.
  destruct r as [l|l]; cbn [v_metadata_response e_metadata_response]; intros V.
  - nrm. l1.
  - unfold joinsp. unfold v1 in V. vs. apply lead1_join; [assumption |]. rewrite forallb_forall in H0.
    intros x Hx. eapply lead1_weak; [| apply L_astring, H0, Hx]. sub.
Qed.
Definition is_mbd (d : data) : bool :=
  match d with
  | DExpunge _ | DFetch _ _ | DVanished _ _ | DCapability _ | DEnabled _ | DId _ => false
  | _ => true
  end.
Ltac skips := repeat (apply P_alt_skip; [solve [rj] |]); apply P_alt_here.
Lemma nz_u32 n : v_nz32 n = true -> v_u32 n = true.
Proof. unfold v_nz32. intros V. now vs. Qed.
Lemma P_p_mailbox_data d : v_data lv d = true -> is_mbd d = true -> P p_mailbox_data (db d) d eol.
Proof.
  intros V M. unfold p_mailbox_data. destruct d; try discriminate M; cbn [v_data db] in *; vs; nrm.
  - (* LIST *) skips. pstep.
    eapply P_bindl with (v := (items, delim, m)) (f1 := nas); [| ld | rt].
    pose proof (P_p_mailbox_list items delim m ltac:(assumption) ltac:(assumption) ltac:(assumption)) as K.
    revert K. nrm. auto.
  - (* LSUB *) skips. pstep.
    eapply P_bindl with (v := (items, delim, m)) (f1 := nas); [| ld | rt].
    pose proof (P_p_mailbox_list items delim m ltac:(assumption) ltac:(assumption) ltac:(assumption)) as K.
    revert K. nrm. auto.
  - (* STATUS *) skips. pstep. eapply P_bind; [tok | ld |]. unfold delimited. repeat pstep.
    assert (K : forall o, dflt o = items ->
      P ((fun o => bind (p_opt_sp quirk_trailing_space_status) (fun _ => ret (DStatus m (dflt o)))) o) [] (DStatus m items) eol).
    { intros o <-. apply P_p_opt_sp. apply P_ret. }
    destruct items as [|x l].
    + cbn [joinsp join app]. apply P_opt_skip; [rj |]. pstep. pstep. exact (K None eq_refl).
    + eapply P_optb with (v := x :: l) (f1 := rp); [| ld |].
      * now apply P_p_status_att_list.
      * pstep. pstep. exact (K (Some (x :: l)) eq_refl).
  - (* SEARCH *) skips. pstep. apply P_nums_modseq; [assumption .. |]. apply P_p_opt_sp, P_ret.
  - (* SORT *) skips. pstep. apply P_nums_modseq; [assumption .. |]. apply P_ret.
  - (* THREAD *) rewrite forallb_forall in V. skips. unfold p_thread_data. pstep. destruct l as [|x l].
    + apply P_opt_skip; [rj | rt].
    + eapply P_bindl with (v := Some (x :: l)) (f1 := eol); [| ld | rt]. apply P_opt_some. pstep.
      eapply P_many1 with (fe := any); [discriminate | | reflexivity | cbn [p_thread_list]; rj].
      intros y Hy. split; [now apply P_p_thread, V | apply L_thread].
  - (* FLAGS *) skips. eapply P_pmap'; [reflexivity |]. pstep.
    pose proof (P_p_flag_list l V) as K. revert K. nrm. intros K. eapply P_weak; [| exact K]. reflexivity.
  - (* EXISTS *) skips. rt.
  - (* RECENT *) repeat (apply P_alt_skip; [first [solve [rj] | apply Rj_num; [assumption | ld | rj]] |]). rt.
  - (* QUOTA *) skips. unfold p_quota_response. pstep. eapply P_bind; [tok | ld |].
    eapply P_bindl with (v := quotas) (f1 := any); [| ld | rt].
    apply P_vec1; [eapply nonempty_v1; eassumption |]. unfold delimited. pstep.
    eapply P_paren1_bind; [eassumption | exact P_p_quota_resource | reflexivity | reflexivity | rt].
  - (* QUOTAROOT *) skips. unfold p_quotaroot_response. pstep. rewrite forallb_forall in H0.
    eapply P_bind; [tok | destruct roots; cbn [flat_map]; nrm; ld |]. apply P_app_nil.
    eapply P_many0_bind with (fe := nas); [| ld | rj | rt].
    intros x Hx. specialize (H0 x Hx). split; nrm; [rt | l1].
  - (* METADATA *) skips. pstep. unfold p_metadata_resp. repeat pstep.
    eapply P_bindl with (v := items) (f1 := eol); [| ld | rt].
    destruct items as [l|l]; cbn [v_metadata_response e_metadata_response] in *.
    + apply P_alt_here. eapply P_pmap'; [reflexivity |]. eapply P_weak; [| now apply P_p_entry_values]. reflexivity.
    + apply P_alt_skip.
      { destruct l as [|x l]; [discriminate |]. unfold joinsp. rewrite join_cons. unfold v1 in *. cbn [forallb] in *; vs. rj. }
      apply P_alt_here. eapply P_pmap'; [reflexivity |]. apply P_vec1; [eapply nonempty_v1; eassumption |].
      eapply P_joinsp with (fe := nas); [eassumption | exact P_p_astring | reflexivity | ld | rj].
  - (* NAMESPACE *) skips. pstep. unfold p_namespace_response. rt.
Qed.

Lemma P_p_message_data d : v_data lv d = true ->
  match d with DExpunge _ | DFetch _ _ | DVanished _ _ => true | _ => false end = true ->
  P p_message_data (db d) d eol.
Proof.
  intros V M. unfold p_message_data. destruct d; try discriminate M; cbn [v_data db] in *; vs; nrm.
  - apply P_alt_here. unfold terminated. pstep. rt.
  - apply P_alt_here. unfold terminated. rt.
    pose proof (P_p_msg_att items H0) as K. revert K. nrm. intros K. eapply P_weak; [| exact K]. reflexivity.
  - skips. pstep. pstep. destruct earlier; cbn [app].
    + change (B " "%byte :: B "("%byte :: ?o) with (W (bs " (EARLIER)") ++ skipn 8 o).
      eapply P_optb with (v := tt) (f1 := any); [apply P_kwl; reflexivity | reflexivity | rt].
    + apply P_opt_skip; [| rt]. apply Rj_ext with (q := kw " " ;;; kw "(EARLIER)"); [intros i; apply (kw_split (bs " ") (bs "(EARLIER)")) |]. rj.
Qed.
Definition p_resp_alts : parser response :=
    (alt [pmap (fun b => RStatus (StUntagged b)) p_resp_cond_state;
          pmap (fun ct => RStatus (StBye (fst ct) (snd ct))) p_resp_cond_bye;
          pmap RData p_mailbox_data;
          pmap RData p_message_data;
          pmap (fun l => RData (DCapability l)) p_capability_data;
          pmap RData p_enable_data;
          gate ext_id (pmap (fun p => RData (DId p)) p_id)]).
Lemma Rj_mbd_num n o : v_u32 n = true -> leads nd o eol -> Rj (tag_no_case (bs " EXISTS")) o eol ->
  Rj (tag_no_case (bs " RECENT")) o eol -> Rj p_mailbox_data (e_num n ++ o) eol.
Proof.
  intros V L R1 R2. unfold p_mailbox_data.
  repeat (apply Rj_alt_cons; [first [solve [rj] | now apply Rj_num] |]). apply Rj_alt_nil.
Qed.
Lemma P_resp_alts d : v_data lv d = true -> P p_resp_alts (db d) (RData d) eol.
Proof.
  intros V. unfold p_resp_alts.
  apply P_alt_skip; [apply Rj_bind; unfold p_resp_cond_state; apply Rj_bind; destruct d; cbn [db] in *; nrm; rj |].
  apply P_alt_skip; [destruct d; cbn [db] in *; nrm; rj |].
  destruct (is_mbd d) eqn:M.
  { apply P_alt_here. apply P_pmap. now apply P_p_mailbox_data. }
  apply P_alt_skip.
  { apply Rj_bind. destruct d; try discriminate M; cbn [db v_data] in *; vs; nrm.
    2-3: apply Rj_mbd_num; [now apply nz_u32 | ld | rj | rj].
    all: unfold p_mailbox_data; rj. }
  destruct (match d with DExpunge _ | DFetch _ _ | DVanished _ _ => true | _ => false end) eqn:M2.
  { apply P_alt_here. apply P_pmap. now apply P_p_message_data. }
  destruct d; try discriminate M; try discriminate M2; cbn [db v_data] in *; vs; nrm.
  - skips. eapply P_pmap'; [reflexivity |]. apply P_capabilities_data; auto.
  - skips. eapply P_pmap'; [reflexivity |]. unfold p_enable_data. pstep. eapply P_pmap'; [reflexivity |].
    rewrite forallb_forall in V.
    eapply P_many0 with (fe := na); [| sub | rj].
    intros x Hx. specialize (V x Hx). split; nrm; [rt | l1].
  - skips. pstep. eapply P_pmap'; [reflexivity |]. unfold p_id. rt.
Qed.
Lemma P_p_response_data d : v_data lv d = true -> P p_response_data (e_data d) (RData d) any.
Proof.
  intros V. rewrite e_data_db. unfold p_response_data, delimited. cbn [bs W map app]. pstep.
  eapply P_bind with (f1 := eol); [now apply P_resp_alts | reflexivity | rt].
Qed.

(** *** Response codes *)
Lemma P_p_metadata_code c : v_metadata_code c = true -> P p_metadata_code (e_metadata_code c) c rb.
Proof.
  unfold p_metadata_code. destruct c; cbn [v_metadata_code e_metadata_code]; intros V; nrm; skips; try apply P_value; rt.
Qed.
Lemma P_p_resp_text_code c t : (forall b, c <> CdOther b) -> (forall other, v_code lv other c t = true) ->
  P p_resp_text_code (e_code c) c rb.
Proof.
  intros NO V'. pose proof (V' (fun _ _ => false)) as V. clear V'.
  unfold p_resp_text_code. destruct c; cbn [v_code e_code] in *; vs; nrm;
    try (skips; try apply P_value; rt; fail).
  all: try discriminate.
  all: try (exfalso; eapply NO; reflexivity).
  - (* BADCHARSET *) destruct allowed as [|x l].
    + skips. pstep. apply P_opt_skip; [rj | rt].
    + skips. pstep.
      eapply P_bindl with (v := Some (x :: l)) (f1 := any); [| ld | rt]. apply P_opt_some.
      remember (x :: l) as l' eqn:E. unfold delimited. pstep.
      eapply P_paren1_bind with (fe := na); [| exact P_p_charset | reflexivity | reflexivity | rt].
      unfold v1. rewrite V. now subst l'.
  - (* CAPABILITY *) skips. eapply P_pmap'; [reflexivity |]. apply P_capabilities_data; auto.
  - (* PERMANENTFLAGS *) skips. pstep. unfold delimited. repeat pstep.
    destruct (P_opt_joinsp p_flag_perm e_flag_perm v_flag_perm flags na rp) as [o [<- Ho]];
      [exact V | exact P_p_flag_perm | reflexivity | ld | rj | rj |].
    eapply P_bind; [exact Ho | ld | rt].
  - (* METADATA *) skips. pstep. eapply P_pmap'; [reflexivity |]. pstep. now apply P_p_metadata_code.
  - (* APPENDUID *) skips. unfold p_resp_code_apnd. rt.
  - (* COPYUID *) skips. unfold p_resp_code_copy. pstep. eapply P_bind; [tok | ld |]. pstep.
    eapply P_bind; [now apply P_p_uid_set | ld |]. pstep.
    eapply P_bindl; [now apply P_p_uid_set | ld | rt].
Qed.

(** *** Response text *)
(** In front of the end of a line as written by the encoder *)
Definition cr : follow := on (fun b => beq b bCR).
Lemma P_ext_hd {A} (p q : parser A) x o v f : (forall s, p (x :: s) = q (x :: s)) ->
  P q (B x :: o) v f -> P p (B x :: o) v f.
Proof.
  intros E [h1 h2]. split.
  - intros s Hs. rewrite <- (h1 s Hs). apply E.
  - intros pre is8 m d post E'. rewrite <- (h2 _ _ _ _ _ E').
    apply cutB in E' as [pre' [-> _]]. apply E.
Qed.
Variable other : bytes -> bytes -> bool.
(** [Code::Other] survives in front of this text. *)
Hypothesis Hother : forall b t, other b t = true ->
  forallb is_code_other_char b = true /\
  Rj (terminated p_resp_text_code (tg "]")) (W b ++ W (bs "] ") ++ W t) cr.

Lemma P_p_text_cr t : text_ok t = true -> P p_text (W t) t cr.
Proof. intros V. eapply P_weak; [| now apply P_p_text]. unfold cr, non. apply on_impl. vm_compute. reflexivity. Qed.
Lemma P_p_text_after_code t : text_ok t = true -> P p_text_after_code (B bSP :: W t) t cr.
Proof.
  intros V. unfold p_text_after_code. destruct quirk_missing_text; [apply P_alt_here |]; pstep; now apply P_p_text_cr.
Qed.
Lemma P_p_resp_text c t : v_code_text lv other c t = true -> P p_resp_text (e_code_text c t) (c, t) cr.
Proof.
  unfold v_code_text. intros V. vs. destruct c as [c|]; unfold e_code_text, e_opt.
  - eapply P_weak; [intros b Hb; exact Hb |]. rewrite <- !app_assoc. cbn [bs W map app].
    apply P_ext_hd with (q := p_resp_coded); [intros s; now rewrite p_resp_text_eq |].
    unfold p_resp_coded. pstep.
    assert (K : forall p : parser code, P p (e_code c ++ [B "]"%byte]) c any -> P (bind p (fun c =>  t <- p_text_after_code ;; ret (Some c, t)))
       (e_code c ++ B "]"%byte :: B " "%byte :: W t) (Some c, t) cr).
    { intros p Hp. change (B "]"%byte :: ?o) with ([B "]"%byte] ++ o). rewrite app_assoc.
      eapply P_bind with (f1 := any); [exact Hp | ld |].
      eapply P_bindl with (f1 := cr); [now apply P_p_text_after_code | ld | rt]. }
    destruct (match c with CdOther _ => true | _ => false end) eqn:E.
    + destruct c; try discriminate. cbn [v_code only_rt] in H0. apply Hother in H0 as [H0 H1].
      eapply P_ext with (q := bind (orp (terminated p_resp_text_code (tg "]")) p_code_other)
         (fun c => t <- p_text_after_code ;; ret (Some c, t))).
      { intros i. unfold alt, orp, bind. destruct (terminated p_resp_text_code (tg "]") i); reflexivity. }
      apply P_orp_bind_skip; [exact H1 |]. cbn [e_code]. apply K. unfold p_code_other.
      eapply P_pmap'; [reflexivity |]. unfold terminated.
      eapply P_bind; [now apply P_take_while | ld | rt].
    + apply K. apply P_alt_here. unfold terminated.
      eapply P_bind with (f1 := rb); [| ld | rt].
      apply P_p_resp_text_code with (t := t).
      * intros b ->. discriminate.
      * intros o'. destruct c; try discriminate; exact H0.
  - cbn [app]. cbn [only_rt] in H0. pose proof (P_p_text_cr t H) as K. destruct t as [|x t]; [discriminate |].
    cbn in K |- *. apply P_ext_hd with (q := p_resp_plain).
    + intros s. rewrite p_resp_text_eq. cbn in H0. destruct (beq x "["%byte) eqn:Ex; [| reflexivity].
      apply beq_eq in Ex. subst x. discriminate.
    + unfold p_resp_plain. eapply P_pmap'; [reflexivity |]. exact K.
Qed.

Lemma P_p_resp_cond_state b : v_status_body lv other b = true ->
  P p_resp_cond_state (e_status_kind (sb_kind b) ++ spc ++ e_code_text (sb_code b) (sb_text b)) b cr.
Proof.
  destruct b as [k c t]. unfold v_status_body. cbn [sb_kind sb_code sb_text]. intros V.
  unfold p_resp_cond_state.
  assert (K : forall k o, P (alt [value SKOk (kw "OK "); value SKNo (kw "NO "); value SKBad (kw "BAD ")]) o k any ->
    P (k0 <- alt [value SKOk (kw "OK "); value SKNo (kw "NO "); value SKBad (kw "BAD ")] ;;
       ' (c, t) <- p_resp_text ;; ret (mkStatusBody k0 c t)) (o ++ e_code_text c t) (mkStatusBody k c t) cr).
  { intros k' o Ho. eapply P_bind with (f1 := any); [exact Ho | ld |].
    eapply P_bindl with (v := (c, t)) (f1 := cr); [now apply P_p_resp_text | ld | rt]. }
  rewrite app_assoc. destruct k; cbn [e_status_kind]; apply K; nrm; skips; rt.
Qed.
Lemma P_p_resp_cond_bye c t : v_code_text lv other c t = true ->
  P p_resp_cond_bye (W (bs "BYE ") ++ e_code_text c t) (c, t) cr.
Proof. intros V. unfold p_resp_cond_bye. cbn [bs W map app]. pstep. now apply P_p_resp_text. Qed.

(** *** Greetings *)
Lemma P_p_greeting g : v_greeting lv other g = true -> P p_greeting (e_greeting g) g any.
Proof.
  destruct g as [k c t]. unfold v_greeting. cbn [gr_kind gr_code gr_text]. intros V.
  unfold p_greeting, e_greeting. cbn [gr_kind gr_code gr_text]. cbn [bs W map app]. unfold delimited.
  repeat apply P_assoc. pstep. apply P_assoc.
  assert (K : P (alt [p_resp_cond_auth; pmap (fun ct => (GKBye, ct)) p_resp_cond_bye])
    (e_greeting_kind k ++ spc ++ e_code_text c t) (k, (c, t)) cr).
  { destruct k; cbn [e_greeting_kind]; unfold spc; cbn [bs W map app].
    3:{ apply P_alt_skip; [unfold p_resp_cond_auth; apply Rj_bind; rj |]. apply P_alt_here.
        eapply P_pmap'; [reflexivity |]. now apply P_p_resp_cond_bye. }
    all: apply P_alt_here; unfold p_resp_cond_auth.
    - change (B "O"%byte :: B "K"%byte :: B bSP :: ?o) with (W (bs "OK ") ++ o).
      eapply P_bind with (v := GKOk) (f1 := any); [rt | ld |].
      eapply P_bindl with (f1 := cr); [now apply P_p_resp_text | ld | rt].
    - change (B "P"%byte :: B "R"%byte :: B "E"%byte :: B "A"%byte :: B "U"%byte :: B "T"%byte :: B "H"%byte :: B bSP :: ?o) with (W (bs "PREAUTH ") ++ o).
      eapply P_bind with (v := GKPreAuth) (f1 := any); [rt | ld |].
      eapply P_bindl with (f1 := cr); [now apply P_p_resp_text | ld | rt]. }
  rewrite !app_assoc. rewrite <- (app_assoc (e_greeting_kind k)).
  eapply P_bind with (f1 := cr); [exact K | reflexivity |]. rt.
Qed.

(** *** Continuation requests *)
Lemma find2_some x : forall y s, x = "["%byte -> exists a r, find2 bCR bLF (x :: y ++ bCR :: bLF :: s) = Some (x :: a, r).
Proof.
  assert (K : forall y s, exists a r, find2 bCR bLF (y ++ bCR :: bLF :: s) = Some (a, r)).
  { induction y as [|b y IH]; intros s; [cbn; eauto |].
    cbn [app]. destruct (y ++ bCR :: bLF :: s) as [|c l] eqn:E; [now destruct y |].
    rewrite find2_step. destruct (beq b bCR && beq c bLF); [eauto |]. rewrite <- E.
    destruct (IH s) as (a & r & ->). eauto. }
  intros y s ->. destruct (K y s) as (a & r & E).
  destruct (y ++ bCR :: bLF :: s) as [|c l] eqn:El; [now destruct y |].
  rewrite find2_step. cbn [beq andb]. change (beq "[" bCR) with false. cbn [andb]. rewrite E. eauto.
Qed.
Lemma span_some g y s : g bLF = false -> exists a r, span g (y ++ bLF :: s) = Some (a, r).
Proof.
  intros H. induction y as [|b y (a & r & IH)]; cbn [app span].
  - rewrite H. eauto.
  - destruct (g b); [| eauto]. rewrite IH. eauto.
Qed.
Lemma until_bracket y s : exists a r, p_until_crlf ("["%byte :: y ++ bCR :: bLF :: s) = ROk r ("["%byte :: a).
Proof.
  unfold p_until_crlf. destruct quirk_crlf_relaxed.
  - destruct (span_some (fun b => negb (beq b bLF)) (y ++ [bCR]) s eq_refl) as (a & r & E).
    rewrite <- app_assoc in E. cbn [app] in E.
    unfold pmap, bind, take_while. cbn [span]. change (negb (beq "[" bLF)) with true. cbv iota. rewrite E.
    unfold ret, strip_cr. destruct (rev ("["%byte :: a)) as [|c l] eqn:R; [eauto |].
    destruct (beq c bCR) eqn:Ec; [| eauto]. apply beq_eq in Ec. subst c.
    assert (E2 : "["%byte :: a = rev l ++ [bCR]) by (rewrite <- (rev_involutive ("["%byte :: a)), R; reflexivity).
    destruct (rev l) as [|z l']; [discriminate |]. injection E2 as <- _. eauto.
  - destruct (find2_some "["%byte y s eq_refl) as (a & r & E). unfold take_until2. rewrite E. eauto.
Qed.
Lemma b64_bracket a : b64_decode ("["%byte :: a) = None.
Proof. destruct a as [|b [|c [|d a]]]; try reflexivity. Qed.
Lemma header_crlf is8 m n : exists h, lit_header is8 m n = h ++ bCR :: [bLF].
Proof.
  unfold lit_header. exists ((if is8 then bs "~" else []) ++ bs "{" ++ dec n ++ match m with Sync => [] | NonSync => bs "+" end ++ bs "}").
  rewrite <- !app_assoc. reflexivity.
Qed.
Lemma Rj_until_bracket {T} (g : bytes -> T) o f :
  Rj (pmap g (map_res p_until_crlf b64_decode)) (B "["%byte :: o ++ e_crlf) f.
Proof.
  assert (K : forall y s, pmap g (map_res p_until_crlf b64_decode) ("["%byte :: y ++ bCR :: bLF :: s) = RErr).
  { intros y s. destruct (until_bracket y s) as (a & r & E). unfold pmap, map_res, bind.
    rewrite E, b64_bracket. reflexivity. }
  split.
  - intros s _. change (B "["%byte :: o ++ e_crlf) with ([B "["%byte] ++ o ++ e_crlf).
    rewrite !dump_app. rewrite <- !app_assoc. apply K.
  - intros pre is8 m d post E. apply cutB in E as [pre' [-> _]]. left.
    unfold upto_lit. destruct (header_crlf is8 m (lenN d)) as [h ->].
    rewrite dump_B. cbn [app]. rewrite app_assoc. apply K.
Qed.
Lemma until_crlf_exact t s : forallb is_text_char t = true ->
  exists r, p_until_crlf (t ++ bCR :: bLF :: s) = ROk r t /\ crlf r = ROk s tt.
Proof.
  intros Ht. unfold p_until_crlf, crlf.
  assert (Hn : forallb (fun b => negb (beq b bLF)) t = true).
  { apply (forallb_impl is_text_char); [| exact Ht]. intros b Hb.
    now destruct (text_no_crlf _ Hb) as [_ ->]. }
  destruct quirk_crlf_relaxed eqn:Q.
  - exists (bLF :: s). split; [| reflexivity]. unfold pmap, bind.
    change (t ++ bCR :: bLF :: s) with (t ++ [bCR] ++ bLF :: s). rewrite app_assoc.
    rewrite take_while_read; [| now rewrite forallb_app, Hn | reflexivity].
    unfold ret. f_equal. unfold strip_cr. rewrite rev_app_distr. cbn. now rewrite rev_involutive.
  - exists (bCR :: bLF :: s). split; [| reflexivity]. unfold take_until2. now rewrite find2_text.
Qed.
Lemma b64_text d : forallb is_text_char (b64_encode d) = true.
Proof.
  destruct (b64_shape d) as (x & pad & -> & Hx & Hp). rewrite forallb_app. apply andb_true_iff. split.
  - apply (forallb_impl is_base64_char); [| exact Hx]. apply byte_impl. vm_compute. reflexivity.
  - destruct Hp as [-> | [-> | ->]]; reflexivity.
Qed.
Definition v_cont := v_continuation lv other.
Lemma P_p_continue_req c : v_cont c = true -> P p_continue_req (e_continuation c) c any.
Proof.
  intros V. unfold p_continue_req, e_continuation. unfold v_cont in V.
  assert (K : forall code t, v_code_text lv other code t = true ->
    Rj (pmap (@inl bytes (option Types.code * bytes)) (map_res p_until_crlf b64_decode)) (e_code_text code t ++ e_crlf) any ->
    basic_of (code, t) = Some (CRBasic code t) ->
    P (expect (tg "+ " ;;; e <- alt [pmap inl (map_res p_until_crlf b64_decode); pmap inr p_resp_text] ;;
     crlf ;;; ret e)
    (fun e => match e with inl d => Some (CRBase64 d) | inr ct => basic_of ct end))
    (W (bs "+ ") ++ e_code_text code t ++ e_crlf) (CRBasic code t) any).
  { intros code t Vc R E. eapply P_expect with (v := inr (code, t)); [exact E |].
    cbn [bs W map app]. pstep. unfold alt. apply P_orp_bind_skip; [exact R |].
    eapply P_bind with (f1 := cr); [apply P_pmap; now apply P_p_resp_text | reflexivity |]. rt. }
  destruct c as [[c|] t|d]; cbn [v_continuation] in V; vs.
  - apply K.
    + unfold v_code_text. now rewrite H, H0.
    + unfold e_code_text, e_opt. cbn [bs W map app]. apply (Rj_until_bracket inl).
    + reflexivity.
  - destruct (b64_decode t) eqn:Eb; [discriminate |]. apply negb_true_iff in H1. apply K.
    + unfold v_code_text. cbn [only_rt]. now rewrite H, H1.
    + assert (Ht : forallb is_text_char t = true) by (apply ne_forallb in H; tauto).
      split.
      * intros s _. unfold e_code_text, e_opt, e_bytes, e_crlf. cbn [app]. rewrite !dump_app, !dump_W, <- !app_assoc.
        destruct (until_crlf_exact t s Ht) as (r & E & _). unfold pmap, map_res, bind.
        cbn [bs app]. change (t ++ "013"%byte :: ?x) with (t ++ bCR :: x). rewrite E, Eb. reflexivity.
      * intros pre is8 m d post E. exfalso. eapply noLit_cut; [| exact E].
        unfold e_code_text, e_opt, e_bytes, e_crlf. cbn [app]. rewrite <- W_app. apply noLit_W.
    + unfold basic_of. destruct (starts_with (bs "[") t); [discriminate |]. now rewrite Eb.
  - eapply P_expect with (v := inl d); [reflexivity |]. cbn [bs W map app]. pstep.
    change (map B ?x) with (W x). unfold e_crlf. rewrite <- W_app. apply P_tok. intros s _.
    rewrite <- app_assoc. destruct (until_crlf_exact (b64_encode d) s (b64_text d)) as (r & E & E2).
    unfold alt, orp, pmap, map_res, bind.
    match goal with |- context [p_until_crlf ?i] => change (p_until_crlf i) with (p_until_crlf (b64_encode d ++ bCR :: bLF :: s)) end.
    rewrite E, b64_roundtrip. unfold ret. now rewrite E2.
Qed.

(** *** Responses *)
Lemma P_p_response r : v_response lv other r = true -> P p_response (e_response r) r any.
Proof.
  intros V. unfold p_response.
  destruct r as [c|d|st]; cbn [v_response e_response] in *.
  - apply P_alt_skip.
    { assert (E : exists o, e_continuation c = B "+"%byte :: B " "%byte :: o).
      { destruct c; unfold e_continuation; eexists; reflexivity. }
      destruct E as (o & ->). apply Rj_gate, Rj_bind. unfold p_empty_continue_req. rj. }
    apply P_alt_here. apply P_pmap. now apply P_p_continue_req.
  - rewrite e_data_db. apply P_alt_skip; [cbn [bs W map app]; rj |]. apply P_alt_skip; [cbn [bs W map app]; rj |].
    apply P_alt_here. rewrite <- e_data_db. now apply P_p_response_data.
  - destruct st as [b|t b|c t]; cbn [v_status] in *; unfold e_status.
    + cbn [bs W map app]. unfold spc. cbn [app].
      apply P_alt_skip; [rj |]. apply P_alt_skip; [rj |]. apply P_alt_here.
      unfold p_response_data, delimited. pstep.
      eapply P_bind with (f1 := cr); [| reflexivity | rt].
      apply P_alt_here. eapply P_pmap'; [reflexivity |]. now apply P_p_resp_cond_state.
    + vs. apply P_alt_skip; [rewrite <- !app_assoc; unfold e_bytes; rj |].
      apply P_alt_skip; [rewrite <- !app_assoc; unfold e_bytes; rj |].
      apply P_alt_skip; [rewrite <- !app_assoc; unfold e_bytes; rj |].
      apply P_alt_here. eapply P_pmap'; [reflexivity |]. unfold p_response_done. apply P_alt_here.
      unfold p_response_tagged. rewrite <- app_assoc. eapply P_bind with (f1 := non is_tag_char); [now apply P_p_tag | reflexivity |].
      unfold spc at 1. rewrite <- app_assoc. cbn [app]. pstep.
      eapply P_bind with (f1 := cr); [now apply P_p_resp_cond_state | reflexivity | rt].
    + cbn [bs W map app]. unfold spc. cbn [app].
      apply P_alt_skip; [rj |]. apply P_alt_skip; [rj |]. apply P_alt_here.
      unfold p_response_data, delimited. pstep.
      change (B "B"%byte :: B "Y"%byte :: B "E"%byte :: B bSP :: ?o) with (W (bs "BYE ") ++ o).
      rewrite app_assoc.
      eapply P_bind with (f1 := cr); [| reflexivity | rt].
      apply P_alt_skip; [unfold p_resp_cond_state; apply Rj_bind, Rj_bind; nrm; rj |].
      apply P_alt_here. eapply P_pmap' with (v := (c, t)); [reflexivity |]. now apply P_p_resp_cond_bye.
Qed.
End Rt.

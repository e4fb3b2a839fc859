(** Reading back commands. *)

From Verif Require Import Bytes Dec Features Nom Types Utf8 Conv SeqSet Base64 Date ParseCore ParseBody
  ParseCmd EncodeCtx Encode Valid BytesFacts EncodeFacts ParserFacts QuotedFacts OkTac OkCore OkBody
  ValidFacts RtFacts RtTac RtCore RtBody.
Open Scope nat_scope.

(** At the end of a line *)
Definition eol : follow := on (fun b => beq b bCR || beq b bLF).
Ltac sub ::=
  cbv beta;
  first [ intros ? H; exact H
        | exact (fun _ _ => eq_refl)
        | unfold some, nd, na, nas, nlc, rp, dl, ns, nc, eol, nb64, non; apply on_impl; vm_compute; reflexivity ].

(** Evaluate the comparisons of a closed name with closed names. *)
Ltac names :=
  repeat match goal with
  | |- context [beqs ?a ?b] =>
    let v := eval vm_compute in (beqs a b) in
    lazymatch v with true => idtac | false => idtac end; change (beqs a b) with v
  end;
  rewrite ?andb_false_r, ?andb_true_r.

Section Rt.
Context {F : features}.
Notation lv := LExact.

(** *** Names read from an atom *)
Lemma enable_from c : v_capability_enable c = true ->
  atom_ok (capability_enable_str c) = true /\ capability_enable_from (capability_enable_str c) = c.
Proof.
  intros V. destruct c as [| | |k|a]; cbn [v_capability_enable capability_enable_str] in *.
  5:{ vs. split; [assumption |]. revert H0. unfold capability_enable_from. cbv zeta. chain; easy. }
  4: destruct k; cbn [utf8_kind_str].
  all: split; [reflexivity |]; unfold capability_enable_from; names; now rewrite V.
Qed.
Lemma resource_from_str r : v_resource r = true ->
  atom_ok (resource_str r) = true /\ resource_from (resource_str r) = r.
Proof.
  intros V. destruct r as [| | | |a]; cbn [v_resource resource_str] in *.
  5:{ vs. split; [assumption |]. revert H0. unfold resource_from. cbv zeta. chain; easy. }
  all: split; reflexivity.
Qed.
Lemma auth_from_str m : v_auth_mechanism lv m = true ->
  atom_ok (auth_mechanism_str m) = true /\ auth_mechanism_from (auth_mechanism_str m) = m.
Proof.
  intros V. destruct m; cbn [v_auth_mechanism auth_mechanism_str] in *; try discriminate.
  9:{ vs. split; [assumption |]. revert H0. unfold auth_mechanism_from. cbv zeta. chain; easy. }
  all: split; reflexivity.
Qed.
Lemma threading_from_str a : v_threading_algorithm a = true ->
  atom_ok (threading_algorithm_str a) = true /\
  threading_algorithm_from (threading_algorithm_str a) = a.
Proof.
  intros V. destruct a as [| |a]; cbn [v_threading_algorithm threading_algorithm_str] in *.
  3:{ vs. split; [assumption |]. revert H0. unfold threading_algorithm_from. cbv zeta. chain; easy. }
  all: split; reflexivity.
Qed.
Lemma P_from {A} (from : bytes -> A) s a : atom_ok s = true /\ from s = a ->
  P (pmap from p_atom) (W s) a na.
Proof. intros [V <-]. apply P_pmap. now apply P_p_atom. Qed.
Lemma P_p_enable_cap c : v_capability_enable c = true ->
  P p_capability_enable (e_capability_enable c) c na.
Proof. intros V. apply P_from. now apply enable_from. Qed.
Lemma P_p_resource r : v_resource r = true -> P p_resource_name (e_resource r) r na.
Proof. intros V. apply P_from. now apply resource_from_str. Qed.
Lemma P_p_auth m : v_auth_mechanism lv m = true -> P p_auth_type (W (auth_mechanism_str m)) m na.
Proof. intros V. apply P_from. now apply auth_from_str. Qed.
Lemma P_p_threading a : v_threading_algorithm a = true ->
  P (pmap threading_algorithm_from p_atom) (e_threading_algorithm a) a na.
Proof. intros V. apply P_from. now apply threading_from_str. Qed.
Lemma L_enable_cap c : v_capability_enable c = true -> lead1 (on is_atom_char) (e_capability_enable c).
Proof. intros V. apply L_atom. now apply enable_from. Qed.
Lemma L_resource c : v_resource c = true -> lead1 (on is_atom_char) (e_resource c).
Proof. intros V. apply L_atom. now apply resource_from_str. Qed.
Lemma L_auth c : v_auth_mechanism lv c = true -> lead1 (on is_atom_char) (W (auth_mechanism_str c)).
Proof. intros V. apply L_atom. now apply auth_from_str. Qed.
Lemma L_threading c : v_threading_algorithm c = true -> lead1 (on is_atom_char) (e_threading_algorithm c).
Proof. intros V. apply L_atom. now apply threading_from_str. Qed.
Hint Resolve P_p_enable_cap P_p_resource P_p_auth P_p_threading : rtdb.
Hint Resolve L_enable_cap L_resource L_auth L_threading : leaddb.

(** *** Lists in parentheses in front of more input *)
Lemma P_paren0_bind {A T} (p : parser A) (e : A -> list op) (v : A -> bool) (q : list A -> parser T)
    l o w fe f :
  forallb v l = true -> (forall x, v x = true -> P p (e x) x fe) -> fe (Some bSP) = true ->
  fe (Some ")"%byte) = true -> refuses p ")"%byte -> P (q l) o w f ->
  P (bind (sep_list0 sp p) (fun x => bind (tg ")") (fun _ => q x))) (joinsp e l ++ B ")"%byte :: o) w f.
Proof.
  intros V H S1 S2 R Hq. eapply P_bind with (f1 := rp); [| ld | rt; exact Hq].
  eapply P_joinsp0 with (fe := fe); [exact V | exact H | exact S1 | | rj |].
  - intros [b|]; [| discriminate]. intros Hb. apply beq_eq in Hb. now subst b.
  - eapply Rj_starts with (Q := fun b => beq b ")"%byte); [exact (leads_id _) |].
    intros b Hb. apply beq_eq in Hb. now subst b.
Qed.
Lemma P_paren1_bind {A T} (p : parser A) (e : A -> list op) (v : A -> bool) (q : list A -> parser T)
    l o w fe f :
  v1 v l = true -> (forall x, v x = true -> P p (e x) x fe) -> fe (Some bSP) = true ->
  fe (Some ")"%byte) = true -> P (q l) o w f ->
  P (bind (sep_list1 sp p) (fun x => bind (tg ")") (fun _ => q x))) (joinsp e l ++ B ")"%byte :: o) w f.
Proof.
  intros V H S1 S2 Hq. eapply P_bind with (f1 := rp); [| ld | rt; exact Hq].
  eapply P_joinsp with (fe := fe); [exact V | exact H | exact S1 | | rj].
  intros [b|]; [| discriminate]. intros Hb. apply beq_eq in Hb. now subst b.
Qed.

(** *** ID *)
Lemma P_p_id_param x : vpair (v_istring lv) (v_nstring lv) x = true ->
  P p_id_param (e_pair e_istring e_nstring x) x some.
Proof. destruct x as [k v]. intros V. vs. unfold p_id_param, e_pair. cbn [fst snd]. rt. Qed.
Lemma rf_id_param : refuses p_id_param ")"%byte.
Proof. rf. Qed.
Lemma P_p_id_params p : v_id_params lv p = true -> P p_id_params_list (e_id_params p) p any.
Proof.
  intros V. unfold p_id_params_list.
  assert (K : forall l, forallb (vpair (v_istring lv) (v_nstring lv)) l = true ->
    P (alt [pmap Some (delimited (tg "(")
            (if quirk_trailing_space_id
             then terminated (sep_list0 sp p_id_param) (opt sp)
             else sep_list0 sp p_id_param) (tg ")")); value None p_nil])
      (paren (joinsp (e_pair e_istring e_nstring) l)) (Some l) any).
  { intros l Vl. apply P_alt_here. eapply P_pmap'; [reflexivity |]. nrm. unfold delimited. pstep.
    destruct quirk_trailing_space_id.
    - unfold terminated. apply P_assoc. eapply P_bind with (f1 := rp); [| ld |].
      + eapply P_joinsp0 with (fe := some); [exact Vl | exact P_p_id_param | reflexivity | | rj | rj]. ld.
      + apply P_assoc, P_opt_skip; [rj |]. rt.
    - eapply P_paren0_bind; [exact Vl | exact P_p_id_param | reflexivity | reflexivity | exact rf_id_param | rt]. }
  destruct p as [[|x l]|]; cbn [v_id_params e_id_params] in *.
  - destruct quirk_id_empty_to_nil; [discriminate |]. exact (K [] eq_refl).
  - apply (K (x :: l) V).
  - unfold p_nil. rt.
Qed.

(** *** Quota, metadata *)
Lemma P_p_setquota_resource q : v_quota_set q = true -> P p_setquota_resource (e_quota_set q) q nd.
Proof. destruct q as [r l]. unfold v_quota_set. cbn. intros V. vs. unfold p_setquota_resource, e_quota_set. cbn [qs_resource qs_limit]. rt. Qed.
Lemma P_p_entry_value e : v_entry_value lv e = true -> P p_entry_value (e_entry_value e) e some.
Proof. destruct e as [a b]. unfold v_entry_value. cbn [ev_entry ev_value]. intros V. vs. unfold p_entry_value, e_entry_value. cbn [ev_entry ev_value]. rt. Qed.
Lemma P_p_entry_values l : v1 (v_entry_value lv) l = true ->
  P p_entry_values (paren (joinsp e_entry_value l)) l any.
Proof.
  intros V. unfold p_entry_values. apply P_vec1; [now apply nonempty_v1 in V |]. nrm. unfold delimited. pstep.
  eapply P_paren1_bind; [exact V | exact P_p_entry_value | reflexivity | reflexivity | rt].
Qed.
Lemma P_p_gm_option o : v_get_metadata_option o = true ->
  P p_getmetadata_option (e_get_metadata_option o) o dl.
Proof. unfold p_getmetadata_option. destruct o as [n|[]]; cbn [v_get_metadata_option e_get_metadata_option e_depth]; intros V; rt. Qed.
Lemma P_p_entries l : v1 (v_astring lv) l = true ->
  P p_entries match l with [x] => e_astring x | _ => paren (joinsp e_astring l) end l eol.
Proof.
  intros V. unfold p_entries. pose proof V as V'. unfold v1 in V'. vs.
  destruct l as [|x [|y l]]; [discriminate | |].
  - cbn in H0. vs. apply P_alt_here. eapply P_pmap'; [reflexivity |]. rt.
  - nrm. apply P_alt_skip; [rj |]. apply P_alt_here. apply P_vec1; [reflexivity |].
    unfold delimited. pstep.
    eapply P_paren1_bind; [exact V | exact P_p_astring | reflexivity | reflexivity | rt].
Qed.

(** *** Optional lists in parentheses behind a feature *)
Lemma P_gated_bind {A C T} (p : parser A) (e : A -> list op) (v : A -> bool) (cl : parser C) c
    (q : list A -> parser T) l o w fe f :
  v_gated ext_condstore_qresync v l = true -> (forall x, v x = true -> P p (e x) x fe) ->
  fe (Some bSP) = true -> fe (Some ")"%byte) = true ->
  P cl [B ")"%byte] c any -> Rj (tg " (") o f -> P (q l) o w f ->
  P (bind (if ext_condstore_qresync
           then pmap dflt (opt (delimited (tg " (") (sep_list1 sp p) cl)) else ret []) q)
    (e_opt_list e l ++ o) w f.
Proof.
  intros V H S1 S2 Hc R Hq. unfold v_gated in V. vs.
  destruct ext_condstore_qresync.
  - unfold pmap. apply P_assoc. destruct l as [|x l].
    + cbn [e_opt_list app]. apply P_opt_skip; [now apply Rj_bind | now apply P_retb].
    + eapply P_optb with (v := x :: l) (f1 := any); [| ld | now apply P_retb].
      unfold e_opt_list. remember (x :: l) as l' eqn:El. nrm. unfold delimited. pstep.
      eapply P_bind with (f1 := rp); [| ld |].
      * eapply P_joinsp with (fe := fe) (v := v); [| exact H | exact S1 | | rj].
        -- unfold v1. rewrite H1, andb_true_r. now subst l'.
        -- intros [b|]; [| discriminate]. intros Hb. apply beq_eq in Hb. now subst b.
      * eapply P_bindl; [exact Hc | ld | rt].
  - destruct l; [| discriminate]. cbn [e_opt_list app]. now apply P_retb.
Qed.

Lemma P_p_select_param s : v_select_parameter lv s = true ->
  P p_select_param (e_select_parameter s) s any.
Proof.
  intros V. unfold p_select_param. destruct s as [|v m k d]; cbn [v_select_parameter e_select_parameter] in *.
  { rt. }
  vs. nrm. apply P_alt_skip; [rj |]. apply P_alt_here.
  pstep. eapply P_bind; [tok | ld |]. pstep.
  eapply P_bind; [tok | destruct k; cbn [app]; [ld | destruct d; cbn [app]; ld] |].
  assert (K : forall k, P (bind (opt (sp ;;; delimited (char "("%byte)
                           (a <- p_sequence_set ;; sp ;;; b <- p_sequence_set ;; ret (a, b))
                           (char ")"%byte))) (fun d =>
                char ")"%byte ;;; ret (SPQResync v m k d)))
      (match d with Some a => B bSP :: B "("%byte :: (e_sequence_set (fst a) ++ B bSP :: e_sequence_set (snd a)) ++ [B ")"%byte]
       | None => [] end ++ [B ")"%byte]) (SPQResync v m k d) any).
  { intros k'. destruct d as [[a b]|]; cbn [vopt] in *; vs; cbn [fst snd].
    - eapply P_optb with (v := (a, b)) (f1 := any); [| ld | rt].
      unfold delimited. rt.
    - cbn [app]. apply P_opt_skip; [rj | rt]. }
  destruct k as [k|]; cbn [vopt] in *.
  - change (B bSP :: e_sequence_set k ++ ?x) with ((B bSP :: e_sequence_set k) ++ x).
    eapply P_optb with (v := k) (f1 := ns); [rt | destruct d; cbn [app]; ld |]. exact (K (Some k)).
  - cbn [app]. apply P_opt_skip; [| exact (K None)].
    destruct d as [[a b]|]; cbn [app]; nrm; rj.
Qed.

Lemma Rj_eol {A} (p : parser A) : refuses p bCR -> refuses p bLF -> Rj p [] eol.
Proof.
  intros H1 H2. eapply Rj_starts; [exact (leads_id _) |]. intros b Hb. cbv beta in Hb.
  apply orb_true_iff in Hb as [Hb|Hb]; apply beq_eq in Hb; now subst b.
Qed.
Lemma P_select_params_eol {T} (q : list select_parameter -> parser T) l w :
  v_gated ext_condstore_qresync (v_select_parameter lv) l = true ->
  P (q l) [] w eol -> P (bind p_select_params q) (e_opt_list e_select_parameter l) w eol.
Proof.
  intros V H. rewrite <- (app_nil_r (e_opt_list _ _)).
  eapply P_gated_bind with (c := tt) (fe := any);
    [exact V | exact P_p_select_param | reflexivity | reflexivity | rt | apply Rj_eol; rf | exact H].
Qed.
Lemma P_p_fetch_modifier m : v_fetch_modifier m = true -> P p_fetch_modifier (e_fetch_modifier m) m nd.
Proof. unfold p_fetch_modifier. destruct m; cbn [v_fetch_modifier e_fetch_modifier]; intros V; rt. Qed.
Lemma P_fetch_modifiers_eol {T} (q : list fetch_modifier -> parser T) l w :
  v_gated ext_condstore_qresync v_fetch_modifier l = true ->
  P (q l) [] w eol -> P (bind p_fetch_modifiers q) (e_opt_list e_fetch_modifier l) w eol.
Proof.
  intros V H. rewrite <- (app_nil_r (e_opt_list _ _)).
  eapply P_gated_bind with (fe := nd);
    [exact V | exact P_p_fetch_modifier | reflexivity | reflexivity | apply P_charl | apply Rj_eol; rf | exact H].
Qed.
Lemma L_opt_list {A} (e : A -> list op) l o f : leads dl o f -> leads dl (e_opt_list e l ++ o) f.
Proof. intros H. destruct l; [exact H | reflexivity]. Qed.
Lemma P_p_macro m : v_macro_or_items lv m = true -> P p_macro_or_items (e_macro_or_items m) m dl.
Proof.
  intros V. unfold p_macro_or_items. destruct m as [[]|l]; cbn [e_macro_or_items e_macro macro_str].
  1-3: rt.
  cbn [v_macro_or_items] in V.
  assert (K : P (alt [value (MIMacro MacroAll) (kw "ALL"); value (MIMacro MacroFast) (kw "FAST");
       value (MIMacro MacroFull) (kw "FULL"); pmap (fun a => MIItems [a]) p_fetch_att;
       pmap MIItems (delimited (tg "(") (sep_list0 sp p_fetch_att) (tg ")"))])
      (paren (joinsp e_item_name l)) (MIItems l) dl).
  { nrm. repeat (apply P_alt_skip; [rj |]). apply P_alt_here. eapply P_pmap'; [reflexivity |].
    unfold delimited. pstep.
    eapply P_paren0_bind; [exact V | exact P_p_fetch_att | reflexivity | reflexivity | rf | rt]. }
  destruct l as [|x [|y l]]; [exact K | | exact K].
  cbn [forallb] in V. vs.
  assert (R : forall s, In s [bs "ALL"; bs "FAST"; bs "FULL"] -> Rj (tag_no_case s) (e_item_name x) dl).
  { intros s Hs. repeat (destruct Hs as [<- | Hs]); [| | | destruct Hs];
      destruct x as [|a b [|]| | | | | | | | | |a b [|]|a|]; cbn [e_item_name]; nrm; rj. }
  repeat (apply P_alt_skip; [unfold value; apply Rj_bind, R; cbn; tauto |]).
  apply P_alt_here. eapply P_pmap'; [reflexivity |]. rt.
Qed.
Lemma P_p_search_criteria cs l : v_charset cs = true -> v1 (v_search_key lv) l = true ->
  P p_search_criteria (e_charset cs ++ spc ++ joinsp e_search_key l) (cs, l) eol.
Proof. intros V1 V2. unfold p_search_criteria. rt. Qed.

(** *** STORE *)
Lemma P_p_store_modifier m : v_store_modifier m = true ->
  P (pmap SMUnchangedSince (kw "UNCHANGEDSINCE " ;;; p_mod_sequence_valzer)) (e_store_modifier m) m nd.
Proof. destruct m; cbn [v_store_modifier e_store_modifier]; intros V; rt. Qed.
Definition e_store_flags k r fl : list op :=
  match k with STAdd => W (bs "+") | STRemove => W (bs "-") | STReplace => [] end
  ++ W (bs "FLAGS") ++ match r with SRAnswer => [] | SRSilent => W (bs ".SILENT") end
  ++ spc ++ paren (joinsp e_flag fl).
Lemma P_p_store_att_flags k r fl : forallb v_flag fl = true ->
  P p_store_att_flags (e_store_flags k r fl) (k, r, fl) any.
Proof.
  intros V. unfold p_store_att_flags, e_store_flags.
  assert (K : forall t r, P (bind (kw "FLAGS") (fun _ => bind (opt (kw ".SILENT")) (fun r => sp ;;;
      fl <- alt [p_flag_list; sep_list1 sp p_flag] ;;
      ret (match t with Some t => t | None => STReplace end,
           match r with Some _ => SRSilent | None => SRAnswer end, fl))))
      (W (bs "FLAGS") ++ match r with SRAnswer => [] | SRSilent => W (bs ".SILENT") end
        ++ spc ++ paren (joinsp e_flag fl)) (match t with Some t => t | None => STReplace end, r, fl) any).
  { intros t r'.
    assert (K2 : forall r : option unit, P (sp ;;; fl <- alt [p_flag_list; sep_list1 sp p_flag] ;;
      ret (match t with Some t => t | None => STReplace end,
           match r with Some _ => SRSilent | None => SRAnswer end, fl)) (spc ++ paren (joinsp e_flag fl))
      (match t with Some t => t | None => STReplace end,
           match r with Some _ => SRSilent | None => SRAnswer end, fl) any).
    { intros r2. unfold spc. cbn [app]. pstep. eapply P_bindl with (v := fl);
        [apply P_alt_here; now apply P_p_flag_list | ld | rt]. }
    destruct r'.
    - cbn [app]. nrm. pstep. apply P_opt_skip; [rj |]. specialize (K2 None). revert K2. nrm. auto.
    - eapply P_kw; [reflexivity |]. 
      eapply P_optb with (v := tt) (f1 := any); [rt | ld | exact (K2 (Some tt))]. }
  destruct k.
  - apply P_opt_skip; [nrm; rj |]. exact (K None r).
  - eapply P_optb with (v := STAdd) (f1 := any); [rt | ld | exact (K (Some STAdd) r)].
  - eapply P_optb with (v := STRemove) (f1 := any); [rt | ld | exact (K (Some STRemove) r)].
Qed.

(** *** The commands *)
Notation Pc p c := (P p (e_command_body c) c eol).

Lemma P_p_copy s m : v_sequence_set lv s = true -> v_mailbox lv m = true -> Pc p_copy (CCopy s m false).
Proof. intros. unfold p_copy. cbn [e_command_body e_uid]. rt. Qed.
Lemma P_p_move s m : v_sequence_set lv s = true -> v_mailbox lv m = true -> Pc p_move (CMove s m false).
Proof. intros. unfold p_move. cbn [e_command_body e_uid]. rt. Qed.
Lemma P_p_fetch s it ms : v_sequence_set lv s = true -> v_macro_or_items lv it = true ->
  v_gated ext_condstore_qresync v_fetch_modifier ms = true -> Pc p_fetch (CFetch s it false ms).
Proof.
  intros V1 V2 V3. unfold p_fetch. cbn [e_command_body e_uid app].
  pose proof (P_fetch_modifiers_eol (fun ms => ret (CFetch s it false ms)) ms _ V3 (P_ret _ _)) as M.
  remember (e_opt_list e_fetch_modifier ms) as o eqn:Eo. nrm. pstep. pstep.
  eapply P_bind; [tok | ld |]. pstep. eapply P_bind; [now apply P_p_macro | | exact M].
  subst o. destruct ms; cbn [e_opt_list]; [ld | reflexivity].
Qed.
Lemma Rj_charset {T} (q : unit -> parser T) l : v1 (v_search_key lv) l = true ->
  Rj (bind (kw "CHARSET") q) (joinsp e_search_key l) eol.
Proof.
  intros V. unfold v1 in V. vs. destruct l as [|k l]; [discriminate |]. cbn [forallb] in H0. vs.
  unfold joinsp. rewrite join_cons. unfold v_search_key in H0. vs.
  destruct k; cbn [e_search_key v_search_tree] in *; vs; nrm; rj.
Qed.
Lemma P_p_search cs l : vopt v_charset cs = true -> v1 (v_search_key lv) l = true ->
  Pc p_search (CSearch cs l false).
Proof.
  intros V1 V2. unfold p_search. cbn [e_command_body e_uid app].
  destruct cs as [cs|]; cbn [vopt] in V1.
  - eapply P_kw; [reflexivity |].
    eapply P_optb with (v := cs) (f1 := na); [rt | reflexivity | rt].
  - nrm. pstep. apply P_opt_skip; [| rt]. apply (Rj_char_eat bSP). now apply Rj_charset.
Qed.
Lemma P_p_store s k r fl ms : v_sequence_set lv s = true -> forallb v_flag fl = true ->
  v_gated ext_condstore_qresync v_store_modifier ms = true -> Pc p_store (CStore s k r fl false ms).
Proof.
  intros V1 V2 V3. unfold p_store. cbn [e_command_body e_uid app].
  change (match k with STAdd => W (bs "+") | STRemove => W (bs "-") | STReplace => [] end ++ ?x) with
    (e_store_flags k r fl).
  replace (spc ++ match ms with [] => [] | _ => paren (joinsp e_store_modifier ms) ++ spc end
    ++ e_store_flags k r fl) with (e_opt_list e_store_modifier ms ++ spc ++ e_store_flags k r fl).
  2:{ destruct ms as [|m ms]; [reflexivity |]. unfold e_opt_list. now rewrite <- !app_assoc. }
  eapply P_kw; [reflexivity |]. apply (P_char bSP).
  eapply P_bind; [tok | destruct ms; reflexivity |].
  eapply P_gated_bind with (fe := nd);
    [exact V3 | exact P_p_store_modifier | reflexivity | reflexivity | apply P_charl | |].
  - unfold e_store_flags. destruct k; nrm; rj.
  - apply (P_char bSP). eapply P_bindl; [now apply P_p_store_att_flags | ld | rt].
Qed.
Lemma P_p_uid p c c' o : In p [p_copy; p_fetch; p_search; p_store; p_move] ->
  P (alt [p_copy; p_fetch; p_search; p_store; p_move]) o c eol -> set_uid c = Some c' ->
  P p_uid (W (bs "UID ") ++ o) c' eol.
Proof. intros _ H E. unfold p_uid. cbn [bs W map app]. pstep. pstep. eapply P_expect; eauto. Qed.
Lemma P_sort_criterion c : P p_sort_criterion (e_sort_criterion c) c dl.
Proof.
  destruct c as [[] k]; unfold p_sort_criterion, e_sort_criterion; cbn [so_reverse so_key].
  - eapply P_optb with (v := tt) (f1 := any); [rt | ld |]. destruct k; unfold p_sort_key; cbn [sort_key_str].
    all: eapply P_bindl with (f1 := dl); [rt | ld | rt].
  - cbn [app]. destruct k; unfold p_sort_key; cbn [sort_key_str]; nrm; apply P_opt_skip; try solve [rj].
    all: eapply P_bindl with (f1 := dl); [rt | ld | rt].
Qed.
Lemma P_p_sort_criteria l : nonempty l = true -> P p_sort_criteria (paren (joinsp e_sort_criterion l)) l any.
Proof.
  intros V. unfold p_sort_criteria. nrm. unfold delimited. pstep.
  eapply P_bind with (f1 := rp) (v := l); [| ld | rt]. apply P_vec1; [exact V |].
  eapply P_joinsp with (v := fun _ => true) (fe := dl);
    [| intros x _; apply P_sort_criterion | reflexivity | ld | rj].
  unfold v1. rewrite V. cbn. clear V. induction l; auto.
Qed.
Lemma P_p_sort u sc cs l : nonempty sc = true -> v_charset cs = true -> v1 (v_search_key lv) l = true ->
  Pc p_sort (CSort sc cs l u).
Proof.
  intros V1 V2 V3. unfold p_sort. cbn [e_command_body].
  pose proof (P_p_search_criteria cs l V2 V3) as K.
  remember (e_charset cs ++ spc ++ joinsp e_search_key l) as o.
  assert (M : forall u, P (kw "SORT " ;;; sc <- p_sort_criteria ;; sp ;;;
    ' (cs, ks) <- p_search_criteria ;; ret (CSort sc cs ks u))
    (W (bs "SORT ") ++ paren (joinsp e_sort_criterion sc) ++ spc ++ o) (CSort sc cs l u) eol).
  { intros u'. eapply P_kw; [reflexivity |].
    eapply P_bind; [now apply P_p_sort_criteria | ld |]. unfold spc. cbn [app]. pstep.
    eapply P_bindl; [exact K | ld |]. apply P_ret. }
  destruct u; cbn [e_uid].
  - eapply P_optb with (v := tt) (f1 := any); [rt | ld | apply M].
  - apply P_opt_skip; [nrm; rj | apply M].
Qed.
Lemma P_p_thread u a cs l : v_threading_algorithm a = true -> v_charset cs = true ->
  v1 (v_search_key lv) l = true -> Pc p_thread (CThread a cs l u).
Proof.
  intros V1 V2 V3. unfold p_thread. cbn [e_command_body].
  pose proof (P_p_search_criteria cs l V2 V3) as K.
  remember (e_charset cs ++ spc ++ joinsp e_search_key l) as o.
  assert (M : forall u, P (kw "THREAD " ;;; a <- pmap threading_algorithm_from p_atom ;; sp ;;;
    ' (cs, ks) <- p_search_criteria ;; ret (CThread a cs ks u))
    (W (bs "THREAD ") ++ e_threading_algorithm a ++ spc ++ o) (CThread a cs l u) eol).
  { intros u'. eapply P_kw; [reflexivity |].
    eapply P_bind; [now apply P_p_threading | reflexivity |]. unfold spc. cbn [app]. pstep.
    eapply P_bindl; [exact K | ld |]. apply P_ret. }
  destruct u; cbn [e_uid].
  - eapply P_optb with (v := tt) (f1 := any); [rt | ld | apply M].
  - apply P_opt_skip; [nrm; rj | apply M].
Qed.

Lemma L_lit_or_lit8 l : lead1 (on (fun b => beq b "{"%byte || beq b "~"%byte)) (e_lit_or_lit8 l).
Proof. destruct l; cbn [e_lit_or_lit8]; l1. Qed.
Hint Resolve L_lit_or_lit8 : leaddb.
Lemma P_p_append m fl d msg : v_mailbox lv m = true -> forallb v_flag fl = true ->
  vopt v_date_time d = true -> v_lit_or_lit8 lv msg = true -> Pc p_append (CAppend m fl d msg).
Proof.
  intros V1 V2 V3 V4. unfold p_append. cbn [e_command_body].
  assert (K : forall fl', P (d <- opt (sp ;;; p_date_time) ;; sp ;;;
      msg <- alt [pmap LLiteral p_literal; pmap LLiteral8 p_literal8] ;;
      ret (CAppend m fl' d msg))
    (e_opt (fun d => spc ++ e_date_time d) d ++ spc ++ e_lit_or_lit8 msg) (CAppend m fl' d msg) eol).
  { intros fl'.
    assert (K2 : forall d', P (sp ;;; msg <- alt [pmap LLiteral p_literal; pmap LLiteral8 p_literal8] ;;
      ret (CAppend m fl' d' msg)) (spc ++ e_lit_or_lit8 msg) (CAppend m fl' d' msg) eol).
    { intros d'. destruct msg as [x|x]; cbn [v_lit_or_lit8 e_lit_or_lit8] in *; nrm; pstep;
        (eapply P_bindl with (f1 := some); [rt | ld | rt]). }
    destruct d as [d|]; cbn [vopt e_opt] in *.
    - eapply P_optb with (v := d) (f1 := any); [rt | ld | apply K2].
    - cbn [app]. apply P_opt_skip; [| apply K2]. destruct msg; cbn [e_lit_or_lit8]; nrm; rj. }
  eapply P_kw; [reflexivity |].
  eapply P_bind; [tok | |].
  { destruct fl; [| reflexivity]. destruct d; reflexivity. }
  destruct fl as [|x fl].
  - cbn [e_opt_list app]. apply P_opt_skip; [| apply (K [])]. 
    destruct d; cbn [e_opt]; nrm; [rj |]. destruct msg; cbn [e_lit_or_lit8]; nrm; rj.
  - eapply P_optb with (v := x :: fl) (f1 := any); [| ld | apply (K (x :: fl))].
    unfold e_opt_list. unfold spc. cbn [app]. pstep. now apply P_p_flag_list.
Qed.
Lemma P_p_authenticate m ir : v_auth_mechanism lv m = true -> Pc p_authenticate (CAuthenticate m ir).
Proof.
  intros V. unfold p_authenticate. cbn [e_command_body]. eapply P_kw; [reflexivity |].
  destruct ir as [d|].
  - destruct d as [|x d].
    + eapply P_bind; [tok | reflexivity |]. eapply P_bindl with (v := Some []) (f1 := eol); [| ld | rt].
      apply P_opt_some. nrm. pstep. apply P_alt_skip; [| rt].
      split; [| intros ? ? ? ? ? E; now apply noLit_cut in E].
      intros [|b s] Hs; [discriminate |]. cbn in Hs.
      apply orb_true_iff in Hs as [Hs|Hs]; apply beq_eq in Hs; subst b; unfold p_base64, map_res, bind;
      [ erewrite (recognize_read _ (bs "=") (bCR :: s)) by reflexivity
      | erewrite (recognize_read _ (bs "=") (bLF :: s)) by reflexivity ]; reflexivity.
    + eapply P_bind; [tok | reflexivity |]. eapply P_bindl with (v := Some (x :: d)) (f1 := nb64); [| ld | rt].
      apply P_opt_some. unfold spc. cbn [app]. pstep. apply P_alt_here. tok.
  - eapply P_bind; [tok | ld |]. apply P_opt_skip; [rj | rt].
Qed.

Lemma P_p_setquota r l : v_astring lv r = true -> forallb v_quota_set l = true ->
  Pc p_setquota (CSetQuota r l).
Proof.
  intros V1 V2. unfold p_setquota. cbn [e_command_body]. nrm. pstep.
  eapply P_bind; [tok | ld |]. unfold delimited. apply P_assoc. eapply P_tg; [reflexivity |].
  eapply P_ext with (q := bind (sep_list0 sp p_setquota_resource) (fun x => bind (tg ")") (fun _ => ret (CSetQuota r x)))).
  { intros i. rewrite !assoc. unfold bind, ret. destruct (sep_list0 sp p_setquota_resource i) as [r' a| | | |]; try reflexivity.
    cbn [bs]. now destruct (tag _ r'). }
  eapply P_paren0_bind; [exact V2 | exact P_p_setquota_resource | reflexivity | reflexivity | rf | rt].
Qed.
Lemma P_p_status m l : v_mailbox lv m = true -> forallb v_status_name l = true -> Pc p_status (CStatus m l).
Proof.
  intros V1 V2. unfold p_status. cbn [e_command_body]. nrm. pstep.
  eapply P_bind; [tok | ld |]. unfold delimited. apply P_assoc. eapply P_tg; [reflexivity |].
  eapply P_ext with (q := bind (sep_list0 sp p_status_att) (fun x => bind (tg ")") (fun _ => ret (CStatus m x)))).
  { intros i. rewrite !assoc. unfold bind, ret. destruct (sep_list0 sp p_status_att i) as [r' a| | | |]; try reflexivity.
    cbn [bs]. now destruct (tag _ r'). }
  eapply P_paren0_bind; [exact V2 | exact P_p_status_att | reflexivity | reflexivity | rf | rt].
Qed.
Lemma P_p_enable l : v1 v_capability_enable l = true -> Pc p_enable (CEnable l).
Proof.
  intros V. unfold p_enable. cbn [e_command_body].
  replace (W (bs "ENABLE ") ++ joinsp e_capability_enable l) with
    (W (bs "ENABLE") ++ flat_map (fun c => spc ++ e_capability_enable c) l).
  2:{ unfold v1 in V. destruct l as [|x l]; [discriminate |]. unfold joinsp. rewrite join_cons.
      cbn [flat_map]. unfold spc. cbn [bs W map app]. reflexivity. }
  eapply P_kw; [reflexivity |]. eapply P_pmap'; [reflexivity |].
  unfold v1 in V. vs. apply P_vec1; [assumption |]. rewrite forallb_forall in H0.
  eapply P_many1 with (fe := na); [now destruct l | | sub | rj].
  intros x Hx. split; [| now exists bSP]. specialize (H0 x Hx). rt.
Qed.
Lemma P_p_getmetadata o m l : forallb v_get_metadata_option o = true -> v_mailbox lv m = true ->
  v1 (v_astring lv) l = true -> Pc p_getmetadata (CGetMetadata o m l).
Proof.
  intros V1 V2 V3. unfold p_getmetadata. cbn [e_command_body].
  pose proof (P_p_entries l V3) as K.
  remember (match l with [x] => e_astring x | _ => paren (joinsp e_astring l) end) as t.
  assert (M : forall o', P (sp ;;; m <- p_mailbox ;; sp ;;; es <- p_entries ;;
      ret (CGetMetadata (dflt o') m es)) (spc ++ e_mailbox m ++ spc ++ t) (CGetMetadata (dflt o') m l) eol).
  { intros o'. unfold spc. cbn [app]. pstep. eapply P_bind; [tok | reflexivity |]. pstep.
    eapply P_bindl; [exact K | ld | rt]. }
  eapply P_kw; [reflexivity |]. destruct o as [|x o].
  - cbn [e_opt_list app]. apply P_opt_skip; [| apply (M None)]. nrm. rj.
  - eapply P_optb with (v := x :: o) (f1 := any); [| ld | apply (M (Some (x :: o)))].
    unfold e_opt_list. remember (x :: o) as l' eqn:El. nrm. pstep. unfold p_getmetadata_options.
    apply P_vec1; [now subst |]. unfold delimited. pstep.
    eapply P_paren1_bind; [| exact P_p_gm_option | reflexivity | reflexivity | rt].
    subst l'. exact V1.
Qed.

Lemma P_any_of {A} (p : parser A) ps o v f : In p ps -> P p o v f ->
  (forall q, In q ps -> q = p \/ Rj q o f) -> P (alt ps) o v f.
Proof.
  induction ps as [|q ps IH]; [intros []|]. intros Hin Hp Hr.
  destruct (Hr q (or_introl eq_refl)) as [-> | R]; [now apply P_alt_here |].
  destruct ps as [|q' ps].
  - destruct Hin as [-> | []]. now apply P_alt_here.
  - destruct Hin as [-> | Hin]; [now apply P_alt_here |].
    apply P_alt_skip; [exact R |]. apply IH; [exact Hin | exact Hp | intros; apply Hr; now right].
Qed.

Notation cmds := (alt [p_command_any; p_command_auth; p_command_nonauth; p_command_select]).
Lemma Rj_p_sort_thread a cs l : Rj p_sort (e_command_body (CThread a cs l true)) eol.
Proof.
  unfold p_sort. cbn [e_command_body e_uid]. eapply Rj_seq with (v := Some tt) (f1 := any);
    [apply P_opt_some; rt | ld |]. nrm. rj.
Qed.
(** Skip alternatives that start with another keyword. *)
Ltac skip := repeat (apply P_alt_skip; [solve [apply Rj_p_sort_thread | cbn [e_command_body e_uid]; nrm; rj] |]); try apply P_alt_here.
Ltac grp := skip; first [unfold p_command_any | unfold p_command_auth | unfold p_command_nonauth | unfold p_command_select]; skip.
Ltac one := cbn [e_command_body]; rt.
Lemma P_select_mb {T} (k : mailbox -> list select_parameter -> T) m ps :
  v_mailbox lv m = true -> v_gated ext_condstore_qresync (v_select_parameter lv) ps = true ->
  P (m <- p_mailbox ;; ps <- p_select_params ;; ret (k m ps))
    (e_mailbox m ++ e_opt_list e_select_parameter ps) (k m ps) eol.
Proof.
  intros V1 V2. eapply P_bind; [tok | |].
  - destruct ps; cbn [e_opt_list]; [ld | reflexivity].
  - apply P_select_params_eol; [exact V2 | rt].
Qed.
Lemma P_uid c c' o : e_command_body c' = W (bs "UID ") ++ o ->
  e_command_body c = o -> Pc (alt [p_copy; p_fetch; p_search; p_store; p_move]) c ->
  set_uid c = Some c' -> Pc p_uid c'.
Proof. intros E <- H S. rewrite E. eapply P_p_uid; [now left | exact H | exact S]. Qed.
Lemma P_command_body c : v_command_body lv c = true -> Pc cmds c.
Proof.
  intros V. destruct c; cbn [v_command_body] in V; vs.
  all: try match goal with u : bool |- _ => destruct u end.
  all: grp.
  all: try solve [one].
  - now apply P_p_authenticate.
  - unfold p_login. one.
  - unfold p_select. cbn [e_command_body]. eapply P_kw; [reflexivity |]. now apply P_select_mb.
  - unfold p_examine. cbn [e_command_body]. eapply P_kw; [reflexivity |]. now apply P_select_mb.
  - unfold p_create. one.
  - unfold p_delete. one.
  - unfold p_rename. one.
  - unfold p_subscribe. one.
  - unfold p_unsubscribe. one.
  - unfold p_list. one.
  - unfold p_lsub. one.
  - now apply P_p_status.
  - now apply P_p_append.
  - unfold p_uid_expunge. one.
  - eapply P_uid with (c := CSearch cs criteria false); [reflexivity | reflexivity | | reflexivity].
    skip. now apply P_p_search.
  - now apply P_p_search.
  - now apply P_p_sort.
  - now apply P_p_sort.
  - now apply P_p_thread.
  - now apply P_p_thread.
  - eapply P_uid with (c := CFetch s items false mods); [reflexivity | reflexivity | | reflexivity].
    skip. now apply P_p_fetch.
  - now apply P_p_fetch.
  - eapply P_uid with (c := CStore s kind resp flags false mods); [reflexivity | reflexivity | | reflexivity].
    skip. now apply P_p_store.
  - now apply P_p_store.
  - eapply P_uid with (c := CCopy s m false); [reflexivity | reflexivity | | reflexivity].
    skip. now apply P_p_copy.
  - now apply P_p_copy.
  - unfold p_idle. one.
  - now apply P_p_enable.
  - destruct a. unfold p_compress. cbn [e_command_body]. unfold e_compression. cbn [compression_str]. rt.
  - unfold p_getquota. one.
  - unfold p_getquotaroot. one.
  - now apply P_p_setquota.
  - eapply P_uid with (c := CMove s m false); [reflexivity | reflexivity | | reflexivity].
    skip. now apply P_p_move.
  - now apply P_p_move.
  - apply P_gate; [assumption |]. eapply P_pmap'; [reflexivity |]. unfold p_id. cbn [e_command_body].
    eapply P_kw; [reflexivity |]. eapply P_weak; [| now apply P_p_id_params]. sub.
  - apply P_gate; [assumption |]. unfold p_setmetadata. cbn [e_command_body].
    eapply P_kw; [reflexivity |]. pstep. eapply P_bind; [tok | reflexivity |]. 
    unfold spc. cbn [app]. pstep. eapply P_bindl; [now apply P_p_entry_values | ld | rt].
  - apply P_gate; [assumption |]. now apply P_p_getmetadata.
  - apply P_gate; [assumption |]. unfold p_namespace_command. one.
Qed.
Lemma P_p_command_body c : v_command_body lv c = true ->
  P p_command_body (e_command_body c ++ e_crlf) c any.
Proof.
  intros V. unfold p_command_body, terminated. eapply P_bind; [now apply P_command_body | reflexivity |].
  unfold e_crlf. cbn [W map]. rt.
Qed.

(** With the tag, [LiteralFound] carries the tag. *)
Lemma cmd_full c s : v_command lv c = true -> p_command (dump (e_command c) ++ s) = ROk s c.
Proof.
  intros V. unfold v_command in V. vs. destruct c as [t b]. cbn [cmd_tag cmd_body] in *.
  unfold p_command, e_command. cbn [cmd_tag cmd_body].
  assert (T : P (terminated p_tag_imap sp) (e_bytes t ++ spc) t any).
  { unfold terminated, e_bytes, spc. eapply P_bind; [tok | reflexivity |]. rt. }
  rewrite !app_assoc, <- (app_assoc (e_bytes t ++ spc)), dump_app, <- app_assoc. unfold bind at 1.
  rewrite (P_full _ _ _ _ T) by reflexivity.
  unfold pmap, bind. rewrite (P_full _ _ _ _ (P_p_command_body b H0)) by reflexivity. reflexivity.
Qed.
Lemma cmd_cut c pre is8 m d post : v_command lv c = true -> e_command c = pre ++ Lit is8 m d :: post ->
  p_command (upto_lit pre is8 m d) = RFail (FLit (Some (cmd_tag c)) (lenN d) m).
Proof.
  intros V E. unfold v_command in V. vs. destruct c as [t b]. cbn [cmd_tag cmd_body] in *.
  unfold e_command in E. cbn [cmd_tag cmd_body] in E.
  assert (T : P (terminated p_tag_imap sp) (e_bytes t ++ spc) t any).
  { unfold terminated, e_bytes, spc. eapply P_bind; [tok | reflexivity |]. rt. }
  rewrite !app_assoc, <- (app_assoc (e_bytes t ++ spc)) in E.
  apply cut_app in E as [(post' & E)|(pre' & -> & E)].
  { exfalso. revert E. unfold e_bytes, spc. change [B bSP] with (W [bSP]). rewrite <- W_app.
    intros E. apply noLit_cut in E; [exact E | apply noLit_W]. }
  unfold upto_lit. rewrite dump_app, <- app_assoc. unfold p_command, bind at 1.
  rewrite (P_full _ _ _ _ T) by reflexivity.
  unfold pmap, bind. unfold upto_lit in *.
  pose proof (P_cut _ _ _ _ (P_p_command_body b H0) _ _ _ _ _ E) as C. unfold upto_lit in C.
  rewrite C. reflexivity.
Qed.

(** *** AUTHENTICATE data and IDLE done *)
Lemma P_p_authenticate_data a : P p_authenticate_data (e_authenticate_data a) a any.
Proof.
  unfold p_authenticate_data. destruct a as [d|]; cbn [e_authenticate_data].
  - apply P_alt_here. eapply P_pmap'; [reflexivity |]. unfold terminated.
    eapply P_bind; [tok | reflexivity |]. rt.
  - nrm. apply P_alt_skip; [| rt].
    split; [| intros ? ? ? ? ? E; now apply noLit_cut in E].
    intros s _. unfold pmap, terminated, p_base64, map_res, bind.
    change (dump _ ++ s) with ([] ++ (bs "*" ++ [bCR; bLF] ++ s)).
    erewrite (recognize_read _ [] _) by reflexivity. unfold crlf. now destruct quirk_crlf_relaxed.
Qed.
Lemma P_p_idle_done : P p_idle_done e_idle_done tt any.
Proof. unfold p_idle_done, e_idle_done. rt. Qed.
End Rt.

#[export] Hint Resolve P_p_enable_cap P_p_resource P_p_auth P_p_threading P_p_id_params P_p_entry_value
  P_p_entry_values : rtdb.
#[export] Hint Resolve L_enable_cap L_resource L_auth L_threading : leaddb.

(** Proof search for [P] and [Rj]: see RtFacts.v. *)

From Verif Require Import Bytes Features Nom Types Conv ParseCore EncodeCtx Encode Valid
  BytesFacts EncodeFacts ParserFacts OkTac RtFacts.

(** Any next byte, but there is one. *)
Definition some : follow := on (fun _ => true).
Definition nd : follow := non is_digit.
Definition na : follow := non is_atom_char.
Definition nas : follow := non is_astring_char.
Definition nlc : follow := non is_list_char.

Lemma P_retb {A T} (a : A) (q : A -> parser T) o v f : P (q a) o v f -> P (bind (ret a) q) o v f.
Proof. apply P_ext. reflexivity. Qed.
Lemma Rj_retb {A T} (a : A) (q : A -> parser T) o f : Rj (q a) o f -> Rj (bind (ret a) q) o f.
Proof. apply Rj_ext. reflexivity. Qed.
Lemma P_gate {A} b (p : parser A) o v f : b = true -> P p o v f -> P (gate b p) o v f.
Proof. now intros ->. Qed.
Lemma P_gateb {A T} b (p : parser A) (q : A -> parser T) o v f : b = true ->
  P (bind p q) o v f -> P (bind (gate b p) q) o v f.
Proof. now intros ->. Qed.
Lemma Rj_gate {A} b (p : parser A) o f : Rj p o f -> Rj (gate b p) o f.
Proof. destruct b; [auto |]. intros _. apply Rj_perr. Qed.
Lemma P_vec1 {A} (p : parser (list A)) o l f : nonempty l = true -> P p o l f -> P (vec1 p) o l f.
Proof. intros H. apply P_expect. destruct l; [discriminate | reflexivity]. Qed.
Lemma P_vec2 {A} (p : parser (list A)) o l f : atleast2 l = true -> P p o l f -> P (vec2 p) o l f.
Proof. intros H. apply P_expect. destruct l as [|? [|]]; [discriminate .. | reflexivity]. Qed.
Lemma P_optb {A T} (p : parser A) (q : option A -> parser T) o1 o2 v w f1 f :
  P p o1 v f1 -> leads f1 o2 f -> P (q (Some v)) o2 w f -> P (bind (opt p) q) (o1 ++ o2) w f.
Proof. intros. eapply P_bind; [apply P_opt_some; eassumption | eassumption | assumption]. Qed.
Lemma P_app_nil {A} (p : parser A) o v f : P p (o ++ []) v f -> P p o v f.
Proof. now rewrite app_nil_r. Qed.
Lemma Rj_app_nil {A} (p : parser A) o f : Rj p (o ++ []) f -> Rj p o f.
Proof. now rewrite app_nil_r. Qed.

(** [crlf] *)
Lemma P_crlfb {F : features} {T} (q : unit -> parser T) o v f : P (q tt) o v f ->
  P (bind crlf q) (B bCR :: B bLF :: o) v f.
Proof.
  intros H. unfold crlf. destruct quirk_crlf_relaxed.
  - apply P_assoc. change (B bCR :: B bLF :: o) with ([B bCR] ++ B bLF :: o).
    eapply P_bind with (f1 := any); [apply P_opt_some | reflexivity |].
    + eapply P_ext; [| apply (P_char bCR (fun c => ret c) []); apply P_ret].
      intros i. unfold bind. now destruct (char bCR i).
    + apply P_assoc, P_char, P_retb, H.
  - eapply P_tg; [reflexivity | exact H].
Qed.
Lemma P_crlf {F : features} f : P crlf [B bCR; B bLF] tt f.
Proof.
  eapply P_ext; [| apply (P_crlfb (fun u => ret u) []); apply P_ret].
  intros i. unfold bind. now destruct (crlf i).
Qed.
Lemma refuses_crlf {F : features} b : beq b bCR = false -> beq b bLF = false -> refuses crlf b.
Proof.
  intros H1 H2. unfold crlf. destruct quirk_crlf_relaxed.
  - apply refuses_opt_bind; [now apply refuses_char |]. now apply refuses_bind, refuses_char.
  - now apply refuses_tag.
Qed.

(** A single character as the whole parser *)
Lemma P_charl c f : P (char c) [B c] c f.
Proof.
  eapply P_ext; [| apply (P_char c (fun u => ret u) []); apply P_ret].
  intros i. unfold bind. now destruct (char c i).
Qed.

Lemma byte_no (Q g : byte -> bool) : forallb (fun b => implb (Q b) (negb (g b))) all_bytes = true ->
  forall b, Q b = true -> g b = false.
Proof.
  intros H b Hb. pose proof (byte_forall _ H b) as E. cbn in E. rewrite Hb in E.
  now destruct (g b).
Qed.

(** Subsets of follow sets *)
Lemma leads_id f : leads f [] f.
Proof. intros b H. exact H. Qed.
Lemma leads_any o f : leads any o f.
Proof. destruct o; [intros ? ?|]; reflexivity. Qed.
Lemma lead1_leads' f1 o f : lead1 f1 o -> leads f1 o f.
Proof. intros H. rewrite <- (app_nil_r o). now apply lead1_leads. Qed.
Lemma lead1_B f b o : f (Some b) = true -> lead1 f (B b :: o).
Proof. intros H. now exists b. Qed.
Lemma lead1_Lit f (is8 : bool) m d o : f (Some (if is8 then "~"%byte else "{"%byte)) = true ->
  lead1 f (Lit is8 m d :: o).
Proof. intros H. eexists. split; [reflexivity | exact H]. Qed.
Lemma lead1_W f x : f (hd_error x) = true -> x <> [] -> lead1 f (W x).
Proof. destruct x as [|b x]; [congruence |]. intros H _. now exists b. Qed.
Lemma lead1_Wall g x : forallb g x = true -> x <> [] -> lead1 (on g) (W x).
Proof.
  destruct x as [|b x]; [congruence |]. intros H _. exists b. split; [reflexivity |].
  cbn in *. now apply andb_true_iff in H.
Qed.
Lemma lead1_join {A} f sep (e : A -> list op) l : nonempty l = true ->
  (forall x, In x l -> lead1 f (e x)) -> lead1 f (join sep e l).
Proof.
  destruct l as [|x l]; [discriminate |]. intros _ H. rewrite join_cons. apply lead1_app, H.
  now left.
Qed.

Ltac sub :=
  cbv beta;
  first [ intros ? H; exact H
        | exact (fun _ _ => eq_refl)
        | unfold some, nd, na, nas, nlc, non; apply on_impl; vm_compute; reflexivity ].

Ltac chain := repeat match goal with |- context [if ?c then _ else _] => destruct c end.
Ltac byte_fact := apply byte_impl; vm_compute; reflexivity.

Create HintDb rtdb discriminated.
Create HintDb leaddb discriminated.
#[export] Hint Constants Opaque : rtdb leaddb.
#[export] Hint Variables Opaque : rtdb leaddb.
#[export] Hint Transparent atom_t bytes nstring sequence_set part uid_set parser : rtdb leaddb.

Ltac l1 :=
  lazymatch goal with
  | |- lead1 _ (_ ++ _) => apply lead1_app; l1
  | |- lead1 _ (B _ :: _) => apply lead1_B; vm_compute; reflexivity
  | |- lead1 _ (Lit _ _ _ :: _) => apply lead1_Lit; vm_compute; reflexivity
  | |- lead1 _ (joinsp _ _) => unfold joinsp; apply lead1_join; [assumption | intros; l1]
  | |- _ => eapply lead1_weak; [| solve [eauto with leaddb]]; sub
  end.
Ltac ld :=
  lazymatch goal with
  | |- leads any _ _ => apply leads_any
  | |- leads _ [] _ => first [exact (leads_id _) | cbn [leads]; sub]
  | |- leads ?f (B ?x :: _) _ => change (f (Some x) = true); vm_compute; reflexivity
  | |- leads _ (Lit _ _ _ :: _) _ => cbn [leads first]; vm_compute; reflexivity
  | |- leads _ (_ ++ _) _ => apply lead1_leads; l1
  | |- leads _ _ _ => apply lead1_leads'; l1
  end.

(** Normal form of operation lists *)
Ltac nrm :=
  unfold paren, joinsp, spc, e_bytes, e_crlf, e_opt, e_opt_list;
  cbn [bs W map app];
  repeat match goal with |- context [map B ?s] => change (map B s) with (W s) end;
  repeat (progress (rewrite <- ?app_assoc; cbn [app]));
  repeat match goal with |- context [join [B bSP] ?e ?l] => change (join [B bSP] e l) with (joinsp e l) end.

(** *** [refuses] *)
Ltac rfleaf :=
  first [ reflexivity
        | match goal with H : _ ?b = true |- _ => revert H; generalize b; clear; apply byte_no; vm_compute; reflexivity end ].
Ltac head_of t := lazymatch t with ?f _ => head_of f | _ => t end.
Create HintDb rfdb discriminated.
#[export] Hint Constants Opaque : rfdb.
Ltac rf :=
  cbv beta;
  lazymatch goal with
  | |- refuses (bind (opt _) _) _ => first [ apply refuses_opt_bind; [solve [rf] | solve [rf]] ]
  | |- refuses (bind _ _) _ => apply refuses_bind; rf
  | |- refuses (pmap _ _) _ => apply refuses_bind; rf
  | |- refuses (value _ _) _ => apply refuses_bind; rf
  | |- refuses (map_res _ _) _ => apply refuses_bind; rf
  | |- refuses (expect _ _) _ => apply refuses_bind; rf
  | |- refuses (vec1 _) _ => apply refuses_bind; rf
  | |- refuses (vec2 _) _ => apply refuses_bind; rf
  | |- refuses (validated _ _) _ => apply refuses_bind; rf
  | |- refuses (delimited _ _ _) _ => apply refuses_bind; rf
  | |- refuses (terminated _ _) _ => apply refuses_bind; rf
  | |- refuses (many1 _) _ => apply refuses_bind; rf
  | |- refuses (sep_list1 _ _) _ => apply refuses_bind; rf
  | |- refuses (gate _ _) _ => apply refuses_gate; rf
  | |- refuses (alt []) _ => apply refuses_alt_nil
  | |- refuses (alt (_ :: _)) _ => apply refuses_alt_cons; [rf | rf]
  | |- refuses (orp _ _) _ => apply refuses_orp; [rf | rf]
  | |- refuses (sat _) _ => apply refuses_sat; rfleaf
  | |- refuses (char _) _ => apply refuses_char; rfleaf
  | |- refuses sp _ => apply refuses_char; rfleaf
  | |- refuses dquote _ => apply refuses_char; rfleaf
  | |- refuses (take_while1 _) _ => apply refuses_tw1; rfleaf
  | |- refuses (take_while_m_n _ _ _) _ => apply refuses_twmn; [discriminate | rfleaf]
  | |- refuses (tag (bs _)) _ => cbn [bs]; apply refuses_tag; rfleaf
  | |- refuses (tag _) _ => apply refuses_tag; rfleaf
  | |- refuses (tag_no_case (bs _)) _ => cbn [bs]; apply refuses_kw; rfleaf
  | |- refuses (tag_no_case _) _ => apply refuses_kw; rfleaf
  | |- refuses crlf _ => apply refuses_crlf; rfleaf
  | |- refuses (recognize _) _ => apply refuses_recognize; rf
  | |- refuses perr _ => exact (fun _ => eq_refl)
  | |- refuses ?p _ =>
    first [ solve [eauto with rfdb]
          | let h := head_of p in unfold h; rf ]
  end.

(** *** [Rj] *)
(** Find the first byte. *)
Ltac fst_of :=
  unfold starts;
  lazymatch goal with
  | |- leads (on ?Q) (B ?x :: _) _ => instantiate (1 := fun b => beq b x); exact (beq_refl x)
  | |- leads (on ?Q) (Lit false _ _ :: _) _ =>
    instantiate (1 := fun b => beq b "{"%byte); reflexivity
  | |- leads (on ?Q) (Lit true _ _ :: _) _ =>
    instantiate (1 := fun b => beq b "~"%byte); reflexivity
  | |- leads (on ?Q) [] (on _) => exact (leads_id _)
  | |- leads (on ?Q) [] ?f => let h := head_of f in progress unfold h; fst_of
  | |- leads (on ?Q) (_ ++ _) _ => apply lead1_leads; fst1
  | |- leads (on ?Q) _ _ => apply lead1_leads'; fst1
  end
with fst1 :=
  lazymatch goal with
  | |- lead1 _ (_ ++ _) => apply lead1_app; fst1
  | |- lead1 (on ?Q) (B ?x :: _) => instantiate (1 := fun b => beq b x); apply lead1_B; exact (beq_refl x)
  | |- lead1 _ (joinsp _ _) => unfold joinsp; apply lead1_join; [assumption | intros; fst1]
  | |- _ => solve [eauto with leaddb]
  end.
Ltac rjfst := eapply Rj_starts; [fst_of | intros ? ?; solve [rf]].

Ltac rj :=
  cbv beta;
  lazymatch goal with
  | |- Rj (bind (bind _ _) _) _ _ => apply Rj_assoc; rj
  | |- Rj (bind (ret _) _) _ _ => apply Rj_retb; rj
  | |- Rj (bind (tag_no_case _) _) _ _ =>
    first [ apply Rj_bind, Rj_kw; reflexivity | eapply Rj_kwq; [reflexivity |]; rj | rjfst ]
  | |- Rj (bind (tag _) _) _ _ =>
    first [ apply Rj_bind, Rj_tg; reflexivity | eapply Rj_tgq; [reflexivity |]; rj | rjfst ]
  | |- Rj (tag_no_case _) _ _ => first [apply Rj_kw; reflexivity | rjfst]
  | |- Rj (tag _) _ _ => first [apply Rj_tg; reflexivity | rjfst]
  | |- Rj (bind sp _) (B _ :: _) _ => first [apply (Rj_char_eat bSP); rj | rjfst]
  | |- Rj (bind dquote _) (B bDQ :: _) _ => apply (Rj_char_eat bDQ); rj
  | |- Rj (bind (char ?c) _) (B ?c :: _) _ => apply (Rj_char_eat c); rj
  | |- Rj (bind (delimited _ _ _) _) _ _ => unfold delimited at 1; rj
  | |- Rj (bind (terminated _ _) _) _ _ => unfold terminated at 1; rj
  | |- Rj (bind (pmap _ _) _) _ _ => unfold pmap at 1; rj
  | |- Rj (bind (value _ _) _) _ _ => unfold value at 1; rj
  | |- Rj (pmap _ _) _ _ => apply Rj_bind; rj
  | |- Rj (value _ _) _ _ => apply Rj_bind; rj
  | |- Rj (map_res _ _) _ _ => apply Rj_bind; rj
  | |- Rj (expect _ _) _ _ => apply Rj_bind; rj
  | |- Rj (vec1 _) _ _ => apply Rj_bind; rj
  | |- Rj (vec2 _) _ _ => apply Rj_bind; rj
  | |- Rj (validated _ _) _ _ => apply Rj_bind; rj
  | |- Rj (delimited _ _ _) _ _ => unfold delimited at 1; rj
  | |- Rj (terminated _ _) _ _ => apply Rj_bind; rj
  | |- Rj (many1 _) _ _ => apply Rj_bind; rj
  | |- Rj (sep_list1 _ _) _ _ => apply Rj_bind; rj
  | |- Rj (gate _ _) _ _ => apply Rj_gate; rj
  | |- Rj (alt []) _ _ => apply Rj_alt_nil
  | |- Rj (alt (_ :: _)) _ _ => apply Rj_alt_cons; [rj | rj]
  | |- Rj (orp _ _) _ _ => apply Rj_orp; [rj | rj]
  | |- Rj perr _ _ => apply Rj_perr
  | |- _ => first [ solve [rjfst] | solve [eauto with rjdb] | rj_unfold ]
  end
with rj_unfold :=
  lazymatch goal with
  | |- Rj (bind (opt _) _) _ _ => apply Rj_opt_skip; [rj | rj]
  | |- Rj (bind ?p _) _ _ => let h := head_of p in progress unfold h; rj
  | |- Rj ?p _ _ => let h := head_of p in progress unfold h; rj
  end.
Create HintDb rjdb discriminated.
#[export] Hint Constants Opaque : rjdb.

(** *** [P] *)
Ltac featurehyp := first [ assumption | reflexivity ].
(** The token [p] at the front *)
Ltac tok := solve [eauto with rtdb nocore].
Ltac pstep :=
  cbv beta;
  lazymatch goal with
  | |- P (ret _) [] _ _ => apply P_ret
  | |- P (bind (bind _ _) _) _ _ _ => apply P_assoc
  | |- P (bind (ret _) _) _ _ _ => apply P_retb
  | |- P (bind (tag_no_case _) _) _ _ _ => eapply P_kw; [reflexivity |]
  | |- P (bind (tag _) _) _ _ _ => eapply P_tg; [reflexivity |]
  | |- P (tag_no_case _) _ _ _ => eapply P_kwl; reflexivity
  | |- P (tag _) _ _ _ => eapply P_tgl; reflexivity
  | |- P (bind sp _) _ _ _ => apply (P_char bSP)
  | |- P (bind dquote _) _ _ _ => apply (P_char bDQ)
  | |- P (bind (char _) _) _ _ _ => apply P_char
  | |- P (bind crlf _) _ _ _ => apply P_crlfb
  | |- P crlf _ _ _ => apply P_crlf
  | |- P (bind (delimited _ _ _) _) _ _ _ => unfold delimited at 1
  | |- P (bind (terminated _ _) _) _ _ _ => unfold terminated at 1
  | |- P (delimited _ _ _) _ _ _ => unfold delimited at 1
  | |- P (terminated _ _) _ _ _ => unfold terminated at 1
  | |- P (bind (gate _ _) _) _ _ _ => apply P_gateb; [featurehyp |]
  | |- P (gate _ _) _ _ _ => apply P_gate; [featurehyp |]
  | |- P (alt _) _ _ _ =>
    tryif (apply P_alt_skip; [solve [rj] |]) then idtac else (apply P_alt_here)
  | |- P (pmap _ _) _ _ _ => eapply P_pmap'; [reflexivity |]
  | |- P (value _ _) _ _ _ => eapply P_value
  | |- P (bind _ _) (_ ++ _) _ _ => eapply P_bind; [tok | ld |]
  | |- P (bind _ _) _ _ _ =>
    first [ eapply P_bindl; [tok | ld |]
          | lazymatch goal with
            | |- P (bind (pmap _ _) _) _ _ _ => unfold pmap at 1
            | |- P (bind (value _ _) _) _ _ _ => unfold value at 1
            end ]
  | |- P _ _ _ _ => eapply P_weak; [| tok]; sub
  end.
Ltac rt := nrm; repeat pstep.

(** Lists separated by spaces *)
Lemma P_sp c : P sp [B bSP] bSP c.
Proof. apply P_charl. Qed.
Lemma P_joinsp {A} (p : parser A) (e : A -> list op) (v : A -> bool) l fe f :
  v1 v l = true -> (forall x, v x = true -> P p (e x) x fe) -> fe (Some bSP) = true ->
  leads fe [] f -> Rj sp [] f -> P (sep_list1 sp p) (joinsp e l) l f.
Proof.
  intros V H S L R. apply andb_true_iff in V as [N V]. rewrite forallb_forall in V.
  unfold joinsp, spc. change [B bSP] with (W [bSP]).
  eapply P_sep1; [now destruct l | discriminate | apply P_sp | exact S | auto | exact L | exact R].
Qed.
Lemma P_joinsp0 {A} (p : parser A) (e : A -> list op) (v : A -> bool) l fe f :
  forallb v l = true -> (forall x, v x = true -> P p (e x) x fe) -> fe (Some bSP) = true ->
  leads fe [] f -> Rj sp [] f -> Rj p [] f -> P (sep_list0 sp p) (joinsp e l) l f.
Proof.
  intros V H S L R1 R2. rewrite forallb_forall in V.
  unfold joinsp, spc. change [B bSP] with (W [bSP]).
  eapply P_sep0; [discriminate | apply P_sp | exact S | auto | exact L | exact R1 | exact R2].
Qed.
(** As in front of more input *)
Lemma nonempty_v1 {A} (v : A -> bool) l : v1 v l = true -> nonempty l = true.
Proof. intros H. now apply andb_true_iff in H. Qed.
#[export] Hint Resolve nonempty_v1 : leaddb.

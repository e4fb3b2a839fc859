(** Linear bounds for message data (fetch.rs) and for the parsers of CostResp.v. *)

From Verif Require Import Bytes BytesFacts Dec Features Nom Types Utf8 Conv Base64 ParseCore ParseBody ParseCmd
  ParseResp CostNom CostCore CostBody CostCmd CostResp CostFacts CostTac CostLin CostLin2 CostLin3 CostLin4 CostLin5.
From Coq Require Import Lia.

Local Open Scope nat_scope.

#[export] Instance L_msg_att_dynamic {F : features} : cst q_msg_att_dynamic [] [[flat_map ci (bs "FM")]].
Proof. named q_msg_att_dynamic. Qed.
#[export] Typeclasses Opaque q_msg_att_dynamic.
#[export] Instance L_msg_att_static {F : features} : cst q_msg_att_static [] [[flat_map ci (bs "EIRBU")]].
Proof. named q_msg_att_static. Qed.
#[export] Typeclasses Opaque q_msg_att_static.
#[export] Instance L_msg_att {F : features} : cst q_msg_att [] [[["("%byte]]].
Proof. named q_msg_att. Qed.
#[export] Typeclasses Opaque q_msg_att.

(** ** extensions *)
#[export] Instance L_metadata_code {F : features} : cst q_metadata_code [] [[letters]].
Proof. named q_metadata_code. Qed.
#[export] Typeclasses Opaque q_metadata_code.
#[export] Instance L_metadata_resp {F : features} : cst q_metadata_resp [[]] [pat_ci (bs "METADATA")].
Proof. named q_metadata_resp. Qed.
#[export] Typeclasses Opaque q_metadata_resp.
(** one byte of a class, when the next two are not both of the class *)
Lemma lin_take_one f : lin (take_while_m_n 1 1 f) [[those f; those f]] 1 4.
Proof.
  intros i. pose proof (lin_take_while_m_n 1 1 f i) as L. unfold take_while_m_n, span_cost in *.
  assert (T : forall x y r, f x = true -> f y = true -> sus [[those f; those f]] (x :: y :: r) = true).
  { intros x y r Hx Hy. unfold sus. cbn [existsb pm]. now rewrite !those_mem. }
  destruct (span f i) as [[a r]|] eqn:E.
  - pose proof (span_split _ _ _ _ E) as Ei. pose proof (span_all _ _ _ _ E) as Ea. subst i.
    destruct a as [|x [|y [|z a]]]; cbn [length Nat.leb] in *.
    + lia.
    + cbn [app skipn length] in *. lia.
    + cbn [app skipn length] in *. lia.
    + cbn [app skipn firstn length] in *. split; [lia|]. split; [rewrite app_length; lia|]. intros HS.
      cbn in Ea. destruct (f y) eqn:Fy; [|now rewrite andb_false_r in Ea].
      destruct (f z) eqn:Fz; [|now rewrite !andb_false_r in Ea]. rewrite (T y z) in HS; congruence.
  - pose proof (span_none _ _ E) as Ea. destruct i as [|x [|y [|z i]]]; cbn [length Nat.leb skipn] in *; try lia.
    split; [lia|]. split; [lia|]. intros HS.
    cbn in Ea. destruct (f y) eqn:Fy; [|now rewrite andb_false_r in Ea].
    destruct (f z) eqn:Fz; [|now rewrite !andb_false_r in Ea]. rewrite (T y z) in HS; congruence.
Qed.
Definition past (c : byte) (S : list pat) : list pat :=
  map (@tl _) (filter (fun p => match p with [] => true | s :: _ => mem c s end) S).
Lemma lin_then_char {A} (p : parser A) c S a b :
  lin p S a b -> lin (bind p (fun x => bind (char c) (fun _ => ret x))) (past c S) a (b + 4).
Proof.
  intros H i. unfold bind. specialize (H i). destruct (p i) as [[r x| | | |] d]; try lia.
  destruct H as (H1 & H2 & H3). destruct r as [|y r]; cbn; [lia|]. destruct (beq y c) eqn:E; [|cbn; lia].
  apply beq_eq in E. subst y. cbn [ret length] in *. split; [lia|]. split; [lia|]. intros HS.
  assert (K : sus S (c :: r) = false); [|specialize (H3 K); lia].
  destruct (sus S (c :: r)) eqn:E; [|reflexivity]. unfold sus in E. apply existsb_exists in E as (q & Hq & E).
  assert (X : sus (past c S) r = true); [|congruence]. unfold sus. apply existsb_exists. exists (tl q). split.
  - apply in_map, filter_In. split; [exact Hq|]. destruct q as [|s q]; [reflexivity|].
    cbn [pm] in E. now apply andb_true_iff in E as [E _].
  - destruct q as [|s q]; [reflexivity|]. cbn [pm] in E. now apply andb_true_iff in E as [_ E].
Qed.
Lemma lin_quoted_char : {ab : nat * nat | lin q_quoted_char [[those nq]; [[bDQ; bBS]; [bDQ; bBS]]] (fst ab) (snd ab)}.
Proof.
  eexists (_, _). cbn [fst snd]. unfold q_quoted_char. cbn [alt].
  eapply lin_S; [eapply lin_expect, lin_orp; [eapply lin_expect, lin_take_one|eapply grd_expect, grd_take_while_m_n; lia|
    eapply lin_expect; eapply lin_bind_nil; [apply lin_tag|intros _; apply lin_take_one]|
    eapply grd_expect, grd_tag_bind; intros _; apply grd_take_while_m_n; lia|ckd]|ckd].
Qed.
Lemma lin_delimited_char :
  {ab : nat * nat | lin (delimited dquote q_quoted_char dquote) [[[bDQ; bBS]]] (fst ab) (snd ab)}.
Proof.
  destruct lin_quoted_char as [[a b] H]. eexists (_, _). cbn [fst snd] in *. unfold delimited.
  eapply lin_S; [eapply lin_bind_nil; [apply lin_char|intros _; apply lin_then_char; exact H]|ckd].
Qed.
#[export] Instance L_delimiter {F : features} : cst q_delimiter [[[bDQ; bBS]]] [[[bDQ; "N"%byte; "n"%byte]]].
Proof.
  destruct lin_delimited_char as [[a b] H]. cbn [fst snd] in H. unfold q_delimiter. eapply mkC.
  - cbn [alt]. eapply lin_S; [eapply lin_orp; [eapply lin_pmap; exact H|solve [gr]|solve [ln]|solve [gr]|ckd]|ckd].
  - eapply grd_weak; [solve [gr]|ckd|apply Nat.le_refl].
Qed.
#[export] Typeclasses Opaque q_delimiter.
#[export] Instance L_namespace_ext {F : features} : cst q_namespace_ext [] [[[bSP]]].
Proof. named q_namespace_ext. Qed.
#[export] Typeclasses Opaque q_namespace_ext.
#[export] Instance L_namespace_descr {F : features} : cst q_namespace_descr [] [[["("%byte]]].
Proof. named q_namespace_descr. Qed.
#[export] Typeclasses Opaque q_namespace_descr.
#[export] Instance L_namespace {F : features} : cst q_namespace [] [[["("%byte; "N"%byte; "n"%byte]]].
Proof. named q_namespace. Qed.
#[export] Typeclasses Opaque q_namespace.
#[export] Instance L_namespace_response {F : features} : cst q_namespace_response [[]] [pat_ci (bs "NAMESPACE")].
Proof. named q_namespace_response. Qed.
#[export] Typeclasses Opaque q_namespace_response.
#[export] Instance L_quota_sp {F : features} : cst q_quota_sp [[[bSP]]] [[[bSP]]].
Proof. named q_quota_sp. Qed.
#[export] Typeclasses Opaque q_quota_sp.
#[export] Instance L_quota_resource {F : features} : cst q_quota_resource [] [[those is_atom_char]].
Proof. named q_quota_resource. Qed.
#[export] Typeclasses Opaque q_quota_resource.
#[export] Instance L_quota_response {F : features} : cst q_quota_response [[]] [pat_ci (bs "QUOTA ")].
Proof. named q_quota_response. Qed.
#[export] Typeclasses Opaque q_quota_response.
#[export] Instance L_quotaroot_response {F : features} : cst q_quotaroot_response [[]] [pat_ci (bs "QUOTAROOT ")].
Proof. named q_quotaroot_response. Qed.
#[export] Typeclasses Opaque q_quotaroot_response.
#[export] Instance L_thread_list {F : features} n : cst (q_thread_list n) [] [[["("%byte]]].
Proof.
  induction n as [|n IH]; cbn [q_thread_list].
  - eapply mkC; [apply lin_pfail|]. eapply grd_weak; [apply grd_pfail|ckd|apply Nat.le_refl].
  - eapply mkC; [eapply lin_S; [solve [ln]|ckd]|].
    eapply grd_weak; [solve [gr]|ckd|apply Nat.le_refl].
Qed.
#[export] Typeclasses Opaque q_thread_list.
#[export] Instance L_thread_data {F : features} : cst q_thread_data [[]] [pat_ci (bs "THREAD")].
Proof. named q_thread_data. Qed.
#[export] Typeclasses Opaque q_thread_data.
#[export] Instance L_uid_elem : cst (alt [q_uid_range; pmap UESingle q_nz_number]) [[[":"%byte]]] [[bd]].
Proof.
  cbn [alt]. unfold q_uid_range. eapply mkC.
  - eapply lin_S; [eapply lin_orp_redo; [solve [ln]|intros ?; solve [ln]|intros ?; solve [gr]|ckd]|ckd].
  - eapply grd_weak; [solve [gr]|ckd|apply Nat.le_refl].
Qed.
#[export] Instance L_uid_set {F : features} : cst q_uid_set [[]] [[bd]].
Proof.
  unfold q_uid_set. eapply mkC.
  - eapply lin_S; [eapply lin_vecn, lin_sep_list1; [solve [sep_tac]|apply (c_lin L_uid_elem)|apply (c_grd L_uid_elem)|ckd]|ckd].
  - eapply grd_weak; [eapply grd_vecn, grd_sep_list1, (c_grd L_uid_elem)|ckd|apply Nat.le_refl].
Qed.
#[export] Typeclasses Opaque q_uid_set.
#[export] Instance L_resp_code_apnd {F : features} : cst q_resp_code_apnd [[]] [[]].
Proof. named q_resp_code_apnd. Qed.
#[export] Typeclasses Opaque q_resp_code_apnd.
#[export] Instance L_resp_code_copy {F : features} : cst q_resp_code_copy [[]] [[]].
Proof. named q_resp_code_copy. Qed.
#[export] Typeclasses Opaque q_resp_code_copy.
#[export] Instance L_enable_data {F : features} : cst q_enable_data [[]] [[]].
Proof. named q_enable_data. Qed.
#[export] Typeclasses Opaque q_enable_data.
#[export] Instance L_mailbox_list {F : features} : cst q_mailbox_list [[]] [[]].
Proof. named q_mailbox_list. Qed.
#[export] Typeclasses Opaque q_mailbox_list.
#[export] Instance L_nums {F : features} : cst q_nums [[]] [[]].
Proof. named q_nums. Qed.
#[export] Typeclasses Opaque q_nums.
#[export] Instance L_opt_modseq {F : features} : cst q_opt_modseq [[]] [[]].
Proof. named q_opt_modseq. Qed.
#[export] Typeclasses Opaque q_opt_modseq.
#[export] Instance L_opt_sp q : cst (q_opt_sp q) [[]] [[]].
Proof. named q_opt_sp. Qed.
#[export] Typeclasses Opaque q_opt_sp.
#[export] Instance L_mailbox_data {F : features} : cst q_mailbox_data [[]] [[]].
Proof. named q_mailbox_data. Qed.
#[export] Typeclasses Opaque q_mailbox_data.
#[export] Instance L_capability {F : features} : cst q_capability [] [[those is_atom_char]].
Proof. named q_capability. Qed.
#[export] Typeclasses Opaque q_capability.
#[export] Instance L_capability_data {F : features} : cst q_capability_data [[]] [[]].
Proof. named q_capability_data. Qed.
#[export] Typeclasses Opaque q_capability_data.
#[export] Instance L_resp_text_code {F : features} : cst q_resp_text_code [[]] [[]].
Proof. named q_resp_text_code. Qed.
#[export] Typeclasses Opaque q_resp_text_code.
#[export] Instance L_code_other {F : features} : cst q_code_other [[]] [[]].
Proof. named q_code_other. Qed.
#[export] Typeclasses Opaque q_code_other.
#[export] Instance L_text_after_code {F : features} : cst q_text_after_code [[]] [[]].
Proof. named q_text_after_code. Qed.
#[export] Typeclasses Opaque q_text_after_code.
Definition resp_text_coded {F : features} : parser (option code * bytes) :=
  tg "[" ;;; c <- alt [terminated q_resp_text_code (tg "]"); q_code_other] ;;
  t <- q_text_after_code ;; ret (Some c, t).
#[export] Instance L_resp_text_coded {F : features} : cst resp_text_coded [[]] [[]].
Proof. named resp_text_coded. Qed.
#[export] Typeclasses Opaque resp_text_coded.
#[export] Instance L_resp_text {F : features} : cst q_resp_text [[]] [[]].
Proof.
  eassert (H : lin (pmap (fun t => (@None code, t)) q_text) [[]] _ _) by (eapply lin_S; [solve [ln]|ckd]).
  eapply mkC; [|apply grd_any]. intros i. unfold q_resp_text. fold resp_text_coded.
  assert (X : snd (opt (tg "[") i) <= 3).
  { unfold opt. pose proof (lin_tag (bs "[") i) as L. destruct (tag (bs "[") i) as [[r x| | | |] c]; cbn in *; lia. }
  pose proof (c_lin L_resp_text_coded i) as C. specialize (H i).
  assert (Y : forall A (y : res A * nat) a1 b1 a2 b2 n k,
    match y with (ROk r _, c) => length r <= length i /\ c <= a1 * length i + b1 /\
        (sus [[]] r = false -> c + a1 * length r <= a1 * length i + b1) | (_, c) => c <= a1 * length i + b1 end ->
    n <= k -> a1 <= a2 -> b1 <= b2 ->
    match (let '(z, d) := y in (z, S (n + d))) with
    | (ROk r _, c) => length r <= length i /\ c <= a2 * length i + (b2 + k + 1) /\
        (sus [[]] r = false -> c + a2 * length r <= a2 * length i + (b2 + k + 1))
    | (_, c) => c <= a2 * length i + (b2 + k + 1)
    end).
  { intros A [[r x| | | |] c] a1 b1 a2 b2 n k HY Hn Ha Hb; [|pose proof (Nat.mul_le_mono_r _ _ (length i) Ha); lia..].
    destruct HY as (Y1 & Y2 & _). split; [exact Y1|]. pose proof (Nat.mul_le_mono_r _ _ (length i) Ha).
    split; [lia|discriminate]. }
  destruct (opt (tg "[") i) as [[r [u|]| | | |] n]; cbn [snd] in X.
  - eapply (Y _ (resp_text_coded i) _ _ (_ + _) (_ + _) n 3); [exact C|exact X|apply Nat.le_add_r..].
  - eapply (Y _ (pmap (fun t => (None, t)) q_text i) _ _ (_ + _) (_ + _) n 3); [exact H|exact X|apply Nat.le_add_l..].
  - lia.
  - lia.
  - lia.
  - lia.
Qed.
#[export] Typeclasses Opaque q_resp_text.
#[export] Instance L_resp_cond_auth {F : features} : cst q_resp_cond_auth [[]] [[]].
Proof. named q_resp_cond_auth. Qed.
#[export] Typeclasses Opaque q_resp_cond_auth.
#[export] Instance L_resp_cond_bye {F : features} : cst q_resp_cond_bye [[]] [[]].
Proof. named q_resp_cond_bye. Qed.
#[export] Typeclasses Opaque q_resp_cond_bye.
#[export] Instance L_greeting {F : features} : cst q_greeting [[]] [[]].
Proof. named q_greeting. Qed.
#[export] Typeclasses Opaque q_greeting.
#[export] Instance L_empty_continue_req {F : features} : cst q_empty_continue_req [[]] [[]].
Proof. named q_empty_continue_req. Qed.
#[export] Typeclasses Opaque q_empty_continue_req.
#[export] Instance L_until_crlf {F : features} : cst q_until_crlf [[]] [[]].
Proof. named q_until_crlf. Qed.
#[export] Typeclasses Opaque q_until_crlf.
#[export] Instance L_continue_req {F : features} : cst q_continue_req [[]] [[]].
Proof. named q_continue_req. Qed.
#[export] Typeclasses Opaque q_continue_req.
#[export] Instance L_resp_cond_state {F : features} : cst q_resp_cond_state [[]] [[]].
Proof. named q_resp_cond_state. Qed.
#[export] Typeclasses Opaque q_resp_cond_state.
#[export] Instance L_message_data {F : features} : cst q_message_data [[]] [[]].
Proof. named q_message_data. Qed.
#[export] Typeclasses Opaque q_message_data.
#[export] Instance L_response_data {F : features} : cst q_response_data [[]] [[]].
Proof. named q_response_data. Qed.
#[export] Typeclasses Opaque q_response_data.
#[export] Instance L_response_tagged {F : features} : cst q_response_tagged [[]] [[]].
Proof. named q_response_tagged. Qed.
#[export] Typeclasses Opaque q_response_tagged.
#[export] Instance L_response_fatal {F : features} : cst q_response_fatal [[]] [[]].
Proof. named q_response_fatal. Qed.
#[export] Typeclasses Opaque q_response_fatal.
#[export] Instance L_response_done {F : features} : cst q_response_done [[]] [[]].
Proof. named q_response_done. Qed.
#[export] Typeclasses Opaque q_response_done.
#[export] Instance L_response {F : features} : cst q_response [[]] [[]].
Proof. named q_response. Qed.
#[export] Typeclasses Opaque q_response.

(** ** command.rs:73-104 *)
Lemma lin_fill {A} t (q : parser A) a b :
  lin q [[]] a b -> lin (fun i => let '(y, c) := q i in (fill_tag t y, S c)) [[]] a (b + 1).
Proof.
  intros H i. specialize (H i). destruct (q i) as [[r x| | |[t0 n m|]|] c]; cbn [fill_tag]; try lia.
  destruct H as (H1 & H2 & H3). split; [exact H1|]. split; [lia|discriminate].
Qed.
#[export] Instance L_command {F : features} : cst q_command [[]] [[]].
Proof.
  eapply mkC; [|apply grd_any]. unfold q_command. eapply lin_bind_all; [solve [ln]|]. intros t.
  eapply lin_fill, lin_S; [solve [ln]|ckd].
Qed.

(** Proof search for [ok]: see ParserFacts.v. *)

From Verif Require Import Bytes BytesFacts Dec Features Nom Types Utf8 Conv ParseCore ParserFacts
  Valid.

Lemma ok_sl1 {F : features} {A B} k (u : B -> bool) (v : A -> bool) s p :
  ok k u s -> ok k v p -> ok k (v1 v) (sep_list1 s p).
Proof. apply ok_sep_list1. Qed.
Lemma ok_m1 {F : features} {A} k (v : A -> bool) p : ok k v p -> ok k (v1 v) (many1 p).
Proof. apply ok_many1. Qed.
Lemma ok_vec1 {F : features} {A} k (v : A -> bool) p : ok k (v1 v) p -> ok k (v1 v) (vec1 p).
Proof.
  intros H. apply (ok_expect k (v1 v)); [exact H |].
  intros [| x l] V; [discriminate |]. cbn [length Nat.leb]. eauto.
Qed.
Lemma ok_vec2 {F : features} {A} k (v : A -> bool) p : ok k (v2 v) p -> ok k (v2 v) (vec2 p).
Proof.
  intros H. apply (ok_expect k (v2 v)); [exact H |].
  intros [| x [| y l]] V; try discriminate. cbn [length Nat.leb]. eauto.
Qed.
Lemma ok_mm2 {F : features} {A} k (v : A -> bool) p : ok k v p -> ok k (v2 v) (many_m 2 p).
Proof.
  intros H. apply (ok_weaken k _ _ _ (ok_many_m k v 2 p H)). intros l E.
  apply andb_true_iff in E as [E1 E2]. unfold v2. rewrite E2, andb_true_r.
  now destruct l as [| x [| y l]].
Qed.
Lemma ok_opt_v {F : features} {A} k (v : A -> bool) p : ok k v p -> ok k (vopt v) (opt p).
Proof. intros H. apply (ok_opt k v); auto. Qed.
Lemma ok_opt_dflt {F : features} {A} k (v : A -> bool) p :
  ok k (v1 v) p -> ok k (forallb v) (pmap dflt (opt p)).
Proof.
  intros H. apply (ok_pmap k (vopt (v1 v))); [now apply ok_opt_v |].
  intros [l |]; [| reflexivity]. cbn. intros E. now apply andb_true_iff in E.
Qed.
Lemma ok_pmap_some {F : features} {A} k (v : A -> bool) p :
  ok k v p -> ok k (vopt v) (pmap Some p).
Proof. intros H. apply (ok_pmap k v); auto. Qed.
Lemma ok_ret_pair {F : features} {A B} k (v : A -> bool) (w : B -> bool) a b :
  v a = true -> w b = true -> ok k (vpair v w) (ret (a, b)).
Proof. intros H1 H2. apply ok_ret. unfold vpair. cbn. now rewrite H1, H2. Qed.
Lemma v1_forallb {A} (v : A -> bool) l : v1 v l = true -> forallb v l = true.
Proof. intros H. now apply andb_true_iff in H. Qed.
Lemma forallb_dflt {A} (v : A -> bool) o : vopt (forallb v) o = true -> forallb v (dflt o) = true.
Proof. now destruct o. Qed.
Lemma forallb_dflt1 {A} (v : A -> bool) o : vopt (v1 v) o = true -> forallb v (dflt o) = true.
Proof. destruct o; [| reflexivity]. apply v1_forallb. Qed.

#[export] Hint Resolve v1_forallb forallb_dflt forallb_dflt1 : okv.

(** Keep [cbn] from unfolding predicates of variables. *)
#[global] Arguments atom_ok : simpl never.
#[global] Arguments atom_ext_ok : simpl never.
#[global] Arguments literal_ok : simpl never.
#[global] Arguments quoted_ok : simpl never.
#[global] Arguments tag_ok : simpl never.
#[global] Arguments text_ok : simpl never.
#[global] Arguments quoted_char_ok : simpl never.
#[global] Arguments list_char_string_ok : simpl never.
#[global] Arguments mailbox_other_ok : simpl never.
#[global] Arguments utf8_ok : simpl never.
#[global] Arguments v_u32 : simpl never.
#[global] Arguments v_nz32 : simpl never.
#[global] Arguments v_u64 : simpl never.
#[global] Arguments v_nz64 : simpl never.
#[global] Arguments v_sequence_set : simpl never.
#[global] Arguments v_nstring : simpl never.
#[global] Arguments v_addresses : simpl never.
#[global] Arguments v_params : simpl never.
#[global] Arguments v_part : simpl never.
#[global] Arguments v_partial : simpl never.
#[global] Arguments v_uid_set : simpl never.
#[global] Arguments v_gated : simpl never.
#[global] Arguments v_search_key : simpl never.
#[global] Arguments v_body : simpl never.
#[global] Arguments v_thread : simpl never.
#[global] Arguments v_literal : simpl never.
#[global] Arguments v_literal8 : simpl never.
#[global] Arguments v_date : simpl never.
#[global] Arguments v_date_time : simpl never.
#[global] Arguments v_address : simpl never.
#[global] Arguments v_envelope : simpl never.
#[global] Arguments v_location : simpl never.
#[global] Arguments v_language : simpl never.
#[global] Arguments v_disposition : simpl never.
#[global] Arguments v_single_ext : simpl never.
#[global] Arguments v_multi_ext : simpl never.
#[global] Arguments v_basic : simpl never.
#[global] Arguments v_quota_get : simpl never.
#[global] Arguments v_quota_set : simpl never.
#[global] Arguments v_entry_value : simpl never.
#[global] Arguments v_namespace_ext : simpl never.
#[global] Arguments v_namespace : simpl never.
#[global] Arguments v_command : simpl never.
#[global] Arguments v_greeting : simpl never.
#[global] Arguments v_status_body : simpl never.
#[global] Arguments v_code_text : simpl never.
#[global] Arguments v1 : simpl never.
#[global] Arguments v2 : simpl never.
#[global] Arguments search_depth : simpl nomatch.
#[global] Arguments be_depth : simpl nomatch.
#[global] Arguments thread_depth : simpl nomatch.
#[global] Arguments body_fits : simpl nomatch.
#[global] Arguments v_istring : simpl nomatch.
#[global] Arguments v_astring : simpl nomatch.
#[global] Arguments v_nstring8 : simpl nomatch.
#[global] Arguments v_charset : simpl nomatch.
#[global] Arguments v_lit_or_lit8 : simpl nomatch.
#[global] Arguments v_seq_or_uid : simpl nomatch.
#[global] Arguments v_sequence : simpl nomatch.
#[global] Arguments v_mailbox : simpl nomatch.
#[global] Arguments v_list_mailbox : simpl nomatch.
#[global] Arguments v_flag : simpl nomatch.
#[global] Arguments v_flag_fetch : simpl nomatch.
#[global] Arguments v_flag_perm : simpl nomatch.
#[global] Arguments v_flag_name : simpl nomatch.
#[global] Arguments v_status_name : simpl nomatch.
#[global] Arguments v_status_item : simpl nomatch.
#[global] Arguments v_auth_mechanism : simpl nomatch.
#[global] Arguments v_body_extension : simpl nomatch.
#[global] Arguments v_body_structure : simpl nomatch.
#[global] Arguments v_section : simpl nomatch.
#[global] Arguments v_item_name : simpl nomatch.
#[global] Arguments v_macro_or_items : simpl nomatch.
#[global] Arguments v_message_data_item : simpl nomatch.
#[global] Arguments v_attribute_flag : simpl nomatch.
#[global] Arguments v_capability_enable : simpl nomatch.
#[global] Arguments v_resource : simpl nomatch.
#[global] Arguments v_sort_algorithm : simpl nomatch.
#[global] Arguments v_threading_algorithm : simpl nomatch.
#[global] Arguments v_thread_tree : simpl nomatch.
#[global] Arguments v_uid_element : simpl nomatch.
#[global] Arguments v_get_metadata_option : simpl nomatch.
#[global] Arguments v_metadata_code : simpl nomatch.
#[global] Arguments v_metadata_response : simpl nomatch.
#[global] Arguments v_id_params : simpl nomatch.
#[global] Arguments v_search_tree : simpl nomatch.
#[global] Arguments v_select_parameter : simpl nomatch.
#[global] Arguments v_fetch_modifier : simpl nomatch.
#[global] Arguments v_store_modifier : simpl nomatch.
#[global] Arguments v_command_body : simpl nomatch.
#[global] Arguments v_capability : simpl nomatch.
#[global] Arguments v_code : simpl nomatch.
#[global] Arguments v_status : simpl nomatch.
#[global] Arguments v_data : simpl nomatch.
#[global] Arguments v_continuation : simpl nomatch.
#[global] Arguments v_response : simpl nomatch.

(** Solve a postcondition from the hypotheses. *)
Ltac okv_unfold :=
  repeat match goal with
  | |- context [v_literal _ (mkLit _ _)] => unfold v_literal at 1
  end.
Ltac okv :=
  intros; cbv beta in *; unfold any, vpair in *;
  repeat match goal with H : (_ && _)%bool = true |- _ => apply andb_true_iff in H as [? ?] end;
  repeat match goal with x : (_ * _)%type |- _ => destruct x end;
  cbn [fst snd] in *;
  first [reflexivity | assumption | solve [auto with okv] |
    cbn; okv_unfold; cbn;
    repeat (rewrite andb_true_iff; split);
    repeat match goal with H : ?x = true |- context [?x] => rewrite H end;
    first [reflexivity | assumption | solve [auto with okv]]].

(** [ok k v p] where [v] may be an existential variable *)
Ltac ok_step :=
  first
  [ solve [auto with okdb nocore]
  | lazymatch goal with
    | |- ok _ _ (vec1 _) => eapply ok_vec1
    | |- ok _ _ (vec2 _) => eapply ok_vec2
    | |- ok _ _ (sep_list1 _ _) => eapply ok_sl1
    | |- ok _ _ (sep_list0 _ _) => eapply ok_sep_list0
    | |- ok _ _ (many0 _) => eapply ok_many0
    | |- ok _ _ (many1 _) => eapply ok_m1
    | |- ok _ _ (many_m 2 _) => eapply ok_mm2
    | |- ok _ _ (delimited _ _ _) => eapply ok_delimited
    | |- ok _ _ (terminated _ _) => eapply ok_terminated
    | |- ok _ _ (gate _ _) => apply ok_gate; intro
    | |- ok _ _ (alt []) => apply ok_alt_nil
    | |- ok _ _ (alt (_ :: _)) => apply ok_alt_cons
    | |- ok _ _ (opt _) => eapply ok_opt_v
    | |- ok _ _ (peek _) => eapply ok_peek
    | |- ok _ _ (pmap dflt (opt _)) => eapply ok_opt_dflt
    | |- ok _ ?v (pmap Some _) => eapply ok_pmap_some
    | |- ok _ ?v (pmap _ _) => tryif is_evar v then fail else (eapply ok_pmap; [oks | okv])
    | |- ok _ ?v (value _ _) => tryif is_evar v then (eapply (ok_value _ _ any)) else (eapply ok_value; [oks | okv])
    | |- ok _ ?v (ret (_, _)) => tryif is_evar v then (eapply ok_ret_pair; eassumption) else (apply ok_ret; okv)
    | |- ok _ ?v (ret _) => tryif is_evar v then (eapply ok_ret; eassumption) else (apply ok_ret; okv)
    | |- ok _ _ (bind _ _) => eapply ok_bind; [oks | intros ? ?]
    | |- ok _ _ perr => apply ok_perr
    | |- ok _ _ pfail => apply ok_pfail
    end ]
with oks := repeat ok_step.
(** Try a weakening when the postcondition does not unify. *)
Ltac ok_weak := eapply ok_weaken; [solve [repeat ok_step] | okv].

(** What the generators of Arb.v make is not among what ArbSpec.v leaves out. *)

From Verif Require Import Bytes BytesFacts Dec Features Nom Types Utf8 Conv SeqSet Base64 Date Ctors
  ValueSpec ValueFacts ValueProps Valid ValidFacts OkTac OkCore OkBody OkCmd OkResp OtherCode
  Arb ArbFacts ArbSpec.
Open Scope nat_scope.

(** The values of [g] satisfy [P]. *)
Definition val {A} (g : gen A) (P : A -> Prop) : Prop := forall a, g (GVal a) -> P a.

Lemma val_sat {A} (g : gen A) P : sat g P -> val g P.
Proof. intros H a Ha. exact (H _ Ha). Qed.
Lemma val_weaken {A} (g : gen A) (P Q : A -> Prop) : val g P -> (forall a, P a -> Q a) -> val g Q.
Proof. intros H W a Ha. auto. Qed.
Lemma val_all {A} (g : gen A) : val g (fun _ => True).
Proof. intros a _. exact I. Qed.
Lemma val_any {A} (P : A -> Prop) : val (g_any P) P.
Proof. intros a H. exact H. Qed.
Lemma val_ret {A} (a : A) (P : A -> Prop) : P a -> val (g_ret a) P.
Proof. intros H b [= ->]. exact H. Qed.
Lemma val_fail {A} (P : A -> Prop) : val g_fail P.
Proof. intros b [=]. Qed.
Lemma val_panic {A} (P : A -> Prop) : val g_panic P.
Proof. intros b [=]. Qed.
Lemma val_bind {A B} (g : gen A) (f : A -> gen B) P Q :
  val g P -> (forall a, P a -> val (f a) Q) -> val (g_bind g f) Q.
Proof.
  intros G K b [(a & Ga & Fo) | [[_ [=]] | [_ [=]]]]. exact (K a (G _ Ga) b Fo).
Qed.
Lemma val_map {A B} (f : A -> B) g (Q : B -> Prop) : val g (fun a => Q (f a)) -> val (g_map f g) Q.
Proof. intros H. eapply val_bind; [exact H |]. intros a Ha. now apply val_ret. Qed.
Lemma val_option {A} (g : gen A) (P : option A -> Prop) :
  P None -> val g (fun a => P (Some a)) -> val (g_option g) P.
Proof. intros Z H o [[=] | [[= ->] | K]]; [exact Z | exact (val_map _ _ _ H o K)]. Qed.
Lemma val_times {A} (g : gen A) P n : val g P -> val (g_times n g) (Forall P).
Proof.
  intros G. induction n as [| n IH]; cbn [g_times]; [apply val_ret; constructor |].
  eapply val_bind; [exact G |]. intros a Ha. eapply val_bind; [exact IH |]. intros l Hl.
  apply val_ret. now constructor.
Qed.
Lemma val_vec {A} (g : gen A) P : val g P -> val (g_vec g) (Forall P).
Proof. intros G. eapply val_bind; [apply val_all |]. intros n _. now apply val_times. Qed.
Lemma val_enum {A} (l : list (gen A)) P : Forall (fun g => val g P) l -> val (g_enum l) P.
Proof. intros H o [[=] | (g & I1 & Go)]. rewrite Forall_forall in H. exact (H g I1 o Go). Qed.
Lemma val_match {A} lo hi (arms : list (gen A)) P :
  Forall (fun g => val g P) (firstn (S hi - lo) arms) -> val (g_match lo hi lo arms) P.
Proof.
  intros H. eapply val_bind; [apply val_any |]. intros n Hn. cbv beta in Hn.
  destruct (Nat.ltb_spec n lo); [lia |].
  destruct (Nat.ltb_spec (n - lo) (length arms)) as [L | L].
  - rewrite Forall_forall in H. apply H. rewrite <- (firstn_skipn (S hi - lo) arms) at 1.
    rewrite app_nth1 by (rewrite firstn_length; lia). apply nth_In. rewrite firstn_length. lia.
  - rewrite nth_overflow by lia. apply val_panic.
Qed.
Lemma val_try {A} (c : conv A) (P : A -> Prop) : (forall a, c = COk a -> P a) -> val (g_try c) P.
Proof. intros H. destruct c; cbn; [apply val_ret; auto | apply val_fail | apply val_panic]. Qed.
Lemma val_vec1 {A} (g : gen A) P : val g P -> val (arb_vec1 g) (Forall P).
Proof.
  intros G. eapply val_bind; [apply val_vec; exact G |]. intros l Hl. apply val_try.
  unfold vec_n_from, validate_vec_n. intros l' E. destruct l; cbn in E; [discriminate |]. now injection E as <-.
Qed.
Lemma val_vecb {A} (g : gen A) (v : A -> bool) : val g (fun a => v a = true) -> val (g_vec g) (fun l => forallb v l = true).
Proof. intros G. eapply val_weaken; [apply val_vec; exact G |]. intros l. apply forallb_Forall. Qed.
Lemma val_vec1b {A} (g : gen A) (v : A -> bool) : val g (fun a => v a = true) -> val (arb_vec1 g) (fun l => forallb v l = true).
Proof. intros G. eapply val_weaken; [apply val_vec1; exact G |]. intros l. apply forallb_Forall. Qed.
Lemma val_opt {A} (g : gen A) (v : A -> bool) : val g (fun a => v a = true) -> val (g_option g) (fun o => vopt v o = true).
Proof. intros G. now apply val_option. Qed.
Lemma val_vpair {A B} (g : gen A) (h : gen B) v w :
  val g (fun a => v a = true) -> val h (fun b => w b = true) -> val (g_pair g h) (fun p => vpair v w p = true).
Proof.
  intros G H. eapply val_bind; [exact G |]. intros a Ha. eapply val_bind; [exact H |].
  intros b Hb. apply val_ret. unfold vpair. cbn [fst snd]. cbv beta in *. now rewrite Ha, Hb.
Qed.
Lemma val_nonempty_or {A} (l : list A) (leaf : gen A) (v : A -> bool) :
  Forall (fun a => v a = true) l -> val leaf (fun a => v a = true) -> val (g_nonempty_or l leaf) (fun l => forallb v l = true).
Proof.
  intros Hl Hf. destruct l as [| a l]; cbn.
  - apply val_map. eapply val_weaken; [exact Hf |]. cbn. now intros b ->.
  - apply val_ret. now apply forallb_Forall.
Qed.

Lemma firstn_Forall {A} (P : A -> Prop) n l : Forall P l -> Forall P (firstn n l).
Proof.
  rewrite !Forall_forall. intros H x Hx. apply H. rewrite <- (firstn_skipn n l). apply in_or_app. now left.
Qed.

Create HintDb vb.
#[export] Hint Resolve val_vec1b val_vecb val_opt val_vpair : vb.
Ltac vknown := solve [cbv beta; eauto 6 with vb].
(** [fin]: what is left to do for the value itself *)
Ltac vgf fin := cbv beta; match goal with
  | |- val (g_ret _) _ => apply val_ret; fin
  | |- val g_fail _ => apply val_fail
  | |- val (g_map _ _) _ => apply val_map; vgf fin
  | |- val (g_bind _ _) _ => eapply val_bind; [vknown | intros; cbv beta in *; vgf fin]
  | |- val (g_bind _ _) _ => eapply val_bind; [apply val_all | intros ? _; vgf fin]
  | |- val (g_enum _) _ => apply val_enum; vgl fin
  | |- val (g_match _ _ _ _) _ => apply val_match; cbn [firstn Nat.sub]; vgl fin
  | |- val _ _ => eapply val_weaken; [vknown | intros; cbv beta in *; fin]
  | |- val _ _ => eapply val_weaken; [apply val_all | intros ? _; cbv beta in *; fin]
  end
with vgl fin := match goal with
  | |- Forall _ (_ ++ _) => apply Forall_app; split; vgl fin
  | |- Forall _ (g_cfg _ _) => apply Forall_cfg; intros; vgl fin
  | |- Forall _ (_ :: _) => constructor; [try solve [vgf fin] | vgl fin]
  | |- Forall _ [] => constructor
  end.

Section Bound.
Context {F : features}.
Variable simplified : bool.
Variable size : N.

Lemma va_istring : val (arb_istring size) (fun s => r_istring s = true).
Proof.
  unfold arb_istring. destruct ext_utf8; [| vgf ltac:(reflexivity)].
  apply val_match. cbn [firstn Nat.sub]. constructor; [vgf ltac:(reflexivity) |]. constructor; [| constructor; [vgf ltac:(reflexivity) | constructor]].
  eapply val_bind; [apply val_all |]. intros s _. unfold validate_quoted.
  destruct (check_cases is_text_char s) as [[E C] | [e E]]; rewrite E; apply val_ret; [reflexivity |].
  cbn [r_istring]. apply negb_true_iff. destruct (quoted_ok s) eqn:Q; [| reflexivity].
  unfold quoted_ok in Q. apply forallb_Forall in Q.
  rewrite (check_ok (fun b => is_text_char b = true) is_text_char (fun b => iff_refl _) s Q) in E. discriminate.
Qed.
Hint Resolve va_istring : vb.
Lemma va_nstring : val (arb_nstring size) (fun s => r_nstring s = true).
Proof. unfold arb_nstring, r_nstring. vknown. Qed.
Hint Resolve va_nstring : vb.
Lemma va_astring : val (arb_astring size) (fun s => r_astring s = true).
Proof. unfold arb_astring. vgf ltac:(cbn [r_astring]; auto). Qed.
Lemma va_nstring8 : val (arb_nstring8 size) (fun s => r_nstring8 s = true).
Proof. unfold arb_nstring8. vgf ltac:(cbn [r_nstring8]; auto). Qed.
Lemma va_list_mailbox : val (arb_list_mailbox size) (fun s => r_list_mailbox s = true).
Proof. unfold arb_list_mailbox. vgf ltac:(cbn [r_list_mailbox]; auto). Qed.
Hint Resolve va_astring va_nstring8 va_list_mailbox : vb.
Lemma va_mailbox : val (arb_mailbox size) (fun s => r_mailbox s = true).
Proof.
  eapply val_bind; [apply val_any |]. intros s [U _]. destruct (mailbox_conv s) as (H1 & H2 & H3).
  destruct (astring_cases s) as [[C (a & E & B)] | (b & i & W & E)].
  2:{ rewrite (H3 _ _ W). apply val_fail. }
  destruct (eqi s (bs "inbox")) eqn:N.
  - rewrite H1; [now apply val_ret |]. apply same_letters_spec. unfold eqi in N. now apply beqs_eq in N.
  - assert (N' : ~ same_letters s (bs "inbox")).
    { intros K. apply same_letters_spec in K. unfold eqi in N. rewrite K, beqs_refl in N. discriminate. }
    rewrite (H2 N' a E). apply val_ret.
    destruct (astring_conv s) as (K1 & K2 & K3 & _).
    destruct (converts_some_cases _ _ _ atom_ext_conv s) as [[A _] | [A _]].
    { rewrite (K1 A) in E. injection E as <-. reflexivity. }
    destruct (converts_many_cases _ _ _ quoted_conv s) as [[Q _] | [Q _]].
    { rewrite (K2 A Q) in E. injection E as <-. cbn [r_mailbox]. apply negb_true_iff.
      destruct (atom_ext_ok s) eqn:X; [| reflexivity]. apply atom_ext_ok_spec in X. contradiction. }
    rewrite (K3 Q C) in E. injection E as <-. cbn [r_mailbox lit_mode_of lit_data]. rewrite U. cbn [andb].
    apply negb_true_iff. destruct (quoted_ok s) eqn:X; [| reflexivity]. apply quoted_ok_spec in X. contradiction.
Qed.
Hint Resolve va_mailbox : vb.
Lemma va_date_time : val arb_date_time (fun t => r_date_time t = true).
Proof.
  unfold arb_date_time.
  eapply val_bind; [apply val_all |]. intros y _. eapply val_bind; [apply val_all |]. intros m _.
  eapply val_bind; [apply val_all |]. intros d _. destruct (negb _); [apply val_fail |].
  eapply val_bind; [apply val_all |]. intros [[[h mi] s] n] _.
  eapply val_bind; [apply val_any |]. intros hours Hh. cbv beta in Hh.
  eapply val_bind; [apply val_any |]. intros minutes Hm. cbv beta in Hm. cbv zeta.
  destruct (negb _); [apply val_panic |]. destruct (validate_date_time _ _ _); [apply val_fail |].
  apply val_ret. unfold r_date_time. cbn [dt_offset]. apply Z.leb_le. lia.
Qed.
Lemma r_auth_of m : v_auth_mechanism LDecoded m = true -> r_auth_mechanism m = true.
Proof. intros V. destruct m; cbn in *; auto. Qed.
Lemma va_auth : val (arb_auth_mechanism size) (fun m => r_auth_mechanism m = true).
Proof.
  eapply val_bind; [apply val_any |]. intros s [U _]. apply val_sat, from_atom; [exact U |]. intros V.
  now apply r_auth_of, auth_mechanism_from_ok.
Qed.
Lemma va_capability : val (arb_capability size) (fun c => r_capability c = true).
Proof.
  eapply val_bind; [apply val_sat, sat_atom |]. cbv beta. intros a Ha. apply val_ret.
  pose proof (capability_from_ok a Ha) as V. set (c := capability_from a) in *. clearbody c.
  destruct c; cbn [v_capability r_capability] in *; try reflexivity.
  - now apply r_auth_of.
  - apply andb_true_iff in V as [_ V]. match goal with m : resource |- _ => destruct m end; cbn in *; auto.
  - apply andb_true_iff in V as [_ V]. exact V.
Qed.
Hint Resolve va_date_time va_auth va_capability : vb.

(** *** Search keys *)
Lemma va_search_leaf d : val (arb_search_key_leaf size) (fun k => r_search_key d k = true).
Proof. unfold arb_search_key_leaf. destruct d; vgf ltac:(cbn [r_search_key]; gconj; auto). Qed.
Hint Resolve va_search_leaf : vb.
Lemma va_search_limited d : val (arb_search_key_limited size d) (fun k => r_search_key d k = true).
Proof.
  induction d as [| d IH]; [apply va_search_leaf |]. cbn [arb_search_key_limited]. cbv zeta.
  apply val_match, firstn_Forall.
  vgl ltac:(cbn [r_search_key]; gconj; auto).
  eapply val_bind; [apply val_all |]. intros n _. eapply val_bind; [apply val_times, IH |]. intros l Hl.
  apply val_map. apply (val_nonempty_or l _ (r_search_key d)); [exact Hl | apply va_search_leaf].
Qed.
Lemma va_search_key : val (arb_search_key simplified size) (fun k => r_search_key (key_depth simplified) k = true).
Proof. unfold arb_search_key, key_depth. destruct simplified; [apply va_search_leaf | apply va_search_limited]. Qed.
Hint Resolve va_search_key : vb.

(** *** Bodies *)
Lemma va_address : val (arb_address size) (fun a => r_address a = true).
Proof. unfold arb_address. vgf ltac:(unfold r_address; cbn; gconj; auto). Qed.
Hint Resolve va_address : vb.
Lemma va_envelope : val (arb_envelope size) (fun a => r_envelope a = true).
Proof.
  unfold arb_envelope. vgf ltac:(unfold r_envelope;
    cbn [env_date env_subject env_from env_sender env_reply_to env_to env_cc env_bcc env_in_reply_to env_message_id]; gconj; auto).
Qed.
Hint Resolve va_envelope : vb.
Lemma va_body_extension : val (arb_body_extension simplified size) (fun b => r_body_extension b = true).
Proof.
  unfold arb_body_extension, arb_body_extension_leaf. destruct simplified; cbn [arb_body_extension_limited];
    vgf ltac:(cbn [r_body_extension]; auto).
Qed.
Lemma va_params : val (arb_params size) (fun l => r_params l = true).
Proof. unfold arb_params, r_params. vknown. Qed.
Hint Resolve va_body_extension va_params : vb.
Lemma va_location : val (arb_location simplified size) (fun l => r_location l = true).
Proof. unfold arb_location. vgf ltac:(unfold r_location; cbn [loc_location loc_extensions]; gconj; auto). Qed.
Hint Resolve va_location : vb.
Lemma va_language : val (arb_language simplified size) (fun l => r_language l = true).
Proof. unfold arb_language. vgf ltac:(unfold r_language; cbn [lang_language lang_tail]; gconj; auto). Qed.
Hint Resolve va_language : vb.
Lemma va_disposition : val (arb_disposition simplified size) (fun l => r_disposition l = true).
Proof. unfold arb_disposition. vgf ltac:(unfold r_disposition; cbn [disp_disposition disp_tail]; gconj; auto). Qed.
Hint Resolve va_disposition : vb.
Lemma va_single_ext : val (arb_single_ext simplified size) (fun l => r_single_ext l = true).
Proof. unfold arb_single_ext. vgf ltac:(unfold r_single_ext; cbn [se_md5 se_tail]; gconj; auto). Qed.
Lemma va_multi_ext : val (arb_multi_ext simplified size) (fun l => r_multi_ext l = true).
Proof. unfold arb_multi_ext. vgf ltac:(unfold r_multi_ext; cbn [me_params me_tail]; gconj; auto). Qed.
Lemma va_basic : val (arb_basic size) (fun l => r_basic l = true).
Proof. unfold arb_basic. vgf ltac:(unfold r_basic; cbn [bf_params bf_id bf_description bf_encoding]; gconj; auto). Qed.
Hint Resolve va_single_ext va_multi_ext va_basic : vb.
Definition r_specific (d : nat) (s : specific_fields) : bool :=
  match s with
  | SFBasic t s => r_istring t && r_istring s
  | SFMessage env b' _ => match d with S d => r_envelope env && r_body d b' | O => false end
  | SFText s _ => r_istring s
  end.
Lemma va_body_leaf d : val (arb_body_structure_leaf simplified size) (fun b => r_body d b = true).
Proof.
  eapply val_bind; [exact va_basic |]. intros b Hb.
  eapply (val_bind _ _ (fun s => r_specific d s = true)); [vgf ltac:(cbn [r_specific]; gconj; auto) |].
  intros s Hs. eapply val_bind; [apply val_opt, va_single_ext |]. intros x Hx. apply val_ret. cbv beta in *.
  assert (K : r_basic b && r_specific d s && vopt r_single_ext x = true) by (gconj; assumption).
  destruct d; exact K.
Qed.
Lemma va_body_limited d : val (arb_body_structure_limited simplified size d) (fun b => r_body d b = true).
Proof.
  induction d as [| d IH]; [apply va_body_leaf |]. cbn [arb_body_structure_limited]. cbv zeta.
  apply val_match. cbn [firstn Nat.sub]. constructor; [| constructor; [| constructor]].
  - eapply val_bind; [exact va_basic |]. intros b Hb.
    eapply (val_bind _ _ (fun s => r_specific (S d) s = true)); [vgf ltac:(cbn [r_specific]; gconj; auto) |].
    intros s Hs. eapply val_bind; [apply val_opt, va_single_ext |]. intros x Hx. apply val_ret. cbv beta in *.
    change (r_basic b && r_specific (S d) s && vopt r_single_ext x = true). gconj; assumption.
  - eapply val_bind; [apply val_all |]. intros n _. eapply val_bind; [apply val_times, IH |]. intros l Hl.
    eapply val_bind; [apply (val_nonempty_or l _ (r_body d)); [exact Hl | apply va_body_leaf] |]. intros l' Hl'.
    vgf ltac:(cbn [r_body]; gconj; auto).
Qed.
Lemma va_body_structure : val (arb_body_structure simplified size) (fun b => r_body (body_depth simplified) b = true).
Proof.
  assert (E : arb_body_structure simplified size = arb_body_structure_limited simplified size (body_depth simplified)).
  { unfold arb_body_structure, body_depth. now destruct simplified. }
  rewrite E. apply va_body_limited.
Qed.
Hint Resolve va_body_structure : vb.

(** *** Fetch, extensions *)
Lemma va_section : val (arb_section size) (fun s => r_section s = true).
Proof. unfold arb_section. vgf ltac:(cbn [r_section]; auto). Qed.
Hint Resolve va_section : vb.
Lemma va_item_name : val (arb_item_name size) (fun s => r_item_name s = true).
Proof. unfold arb_item_name. vgf ltac:(cbn [r_item_name]; auto). Qed.
Hint Resolve va_item_name : vb.
Lemma va_macro_or_items : val (arb_macro_or_items size) (fun s => r_macro_or_items s = true).
Proof. unfold arb_macro_or_items. vgf ltac:(cbn [r_macro_or_items]; auto). Qed.
Lemma va_message_data_item : val (arb_message_data_item simplified size) (fun s => r_message_data_item simplified s = true).
Proof. unfold arb_message_data_item. vgf ltac:(cbn [r_message_data_item]; gconj; auto). Qed.
Lemma va_entry_value : val (arb_entry_value size) (fun s => r_entry_value s = true).
Proof. unfold arb_entry_value. vgf ltac:(unfold r_entry_value; cbn; gconj; auto). Qed.
Hint Resolve va_macro_or_items va_message_data_item va_entry_value : vb.
Lemma va_metadata_response : val (arb_metadata_response size) (fun s => r_metadata_response s = true).
Proof. unfold arb_metadata_response. vgf ltac:(cbn [r_metadata_response]; auto). Qed.
Lemma va_namespace_ext : val (arb_namespace_ext size) (fun s => r_namespace_ext s = true).
Proof. unfold arb_namespace_ext. vgf ltac:(unfold r_namespace_ext; cbn; gconj; auto). Qed.
Hint Resolve va_metadata_response va_namespace_ext : vb.
Lemma va_namespace : val (arb_namespace size) (fun s => r_namespace s = true).
Proof. unfold arb_namespace. vgf ltac:(unfold r_namespace; cbn; gconj; auto). Qed.
Lemma va_id_params : val (arb_id_params size) (fun s => r_id_params s = true).
Proof. unfold arb_id_params, r_id_params. vknown. Qed.
Hint Resolve va_namespace va_id_params : vb.

(** *** Threads *)
Lemma r_thread_S d t : r_thread d t -> r_thread (S d) t.
Proof. induction 1; constructor; assumption. Qed.
Lemma r_thread_add d t n : r_thread d t -> r_thread (n + d) t.
Proof. induction n; cbn; auto using r_thread_S. Qed.
Lemma va_thread_loop n : forall d c, r_thread d c -> val (arb_thread_loop n c) (r_thread (n + d)).
Proof.
  induction n as [| n IH]; intros d c R; cbn [arb_thread_loop]; [now apply val_ret |].
  apply val_match. cbn [firstn Nat.sub]. constructor; [| constructor; [| constructor; [| constructor]]].
  - eapply val_bind; [apply val_all |]. intros p _. cbn. eapply val_bind; [apply (val_ret [c; c] (fun l => l = [c; c])); reflexivity |].
    intros l ->. replace (S (n + d)) with (n + S d) by lia. apply IH. now constructor.
  - cbn. eapply val_bind; [apply (val_ret [c; c] (fun l => l = [c; c])); reflexivity |].
    intros l ->. replace (S (n + d)) with (n + S d) by lia. apply IH. now constructor.
  - apply val_ret. now apply (r_thread_add d c (S n)).
Qed.
Lemma va_thread : val (arb_thread simplified) (r_thread (thread_limit simplified)).
Proof.
  assert (L : val arb_thread_leaf (r_thread 0)).
  { eapply val_bind; [apply val_all |]. intros p _. apply val_ret. constructor. }
  unfold arb_thread, thread_limit. destruct simplified; [exact L |].
  eapply val_bind; [exact L |]. intros c Hc. exact (va_thread_loop 7 0 c Hc).
Qed.

(** *** Messages *)
Lemma va_command_body : val (arb_command_body simplified size) (fun c => r_command_body simplified c = true).
Proof. unfold arb_command_body. vgf ltac:(cbn [r_command_body]; gconj; auto). Qed.
Hint Resolve va_command_body : vb.
Lemma va_command : val (arb_command simplified size) (fun c => r_command simplified c = true).
Proof. unfold arb_command. vgf ltac:(unfold r_command; cbn [cmd_body]; auto). Qed.
Lemma va_code : val (arb_code size) (fun c => r_code c = true).
Proof. unfold arb_code, arb_code_other. vgf ltac:(cbn [r_code]; auto). Qed.
Lemma va_plain : val (arb_plain_text size) (fun t => r_plain t = true).
Proof.
  eapply val_bind; [apply val_all |]. intros t _. destruct (starts_with (bs "[") t) eqn:E.
  - now apply val_ret.
  - apply val_ret. unfold r_plain. now rewrite E.
Qed.
Hint Resolve va_code va_plain : vb.
Lemma va_greeting : val (arb_greeting size) (fun g => r_greeting g = true).
Proof. unfold arb_greeting. vgf ltac:(unfold r_greeting; cbn [gr_code gr_text]; gconj; auto). Qed.
Lemma va_status : val (arb_status size) (fun s => r_status s = true).
Proof.
  eapply val_bind; [apply val_opt, va_code |]. intros c Hc. cbv beta in Hc.
  eapply (val_bind _ _ (fun t => r_code_text c t = true)).
  { destruct c as [c |]; [| apply va_plain]. eapply val_weaken; [apply val_all |]. intros t _. exact Hc. }
  intros t Ht. cbv beta in Ht. apply val_match. cbn [firstn Nat.sub].
  assert (K : forall b, sb_code b = c -> sb_text b = t -> val (arb_tagged_or_not size b) (fun s => r_status s = true)).
  { intros b <- <-. eapply val_bind; [apply val_all |]. intros [g |] _; apply val_ret; exact Ht. }
  repeat (constructor; [first [now apply K | now apply val_ret] |]). constructor.
Qed.
Lemma va_data : val (arb_data simplified size) (fun d => r_data simplified d).
Proof.
  unfold arb_data. apply val_enum. vgl ltac:(cbn [r_data]; gconj; auto).
  apply val_map. eapply val_weaken; [apply val_vec, va_thread |]. auto.
Qed.
Lemma va_continuation : val (arb_continuation size) (fun r => r_response simplified (RContinue r)).
Proof.
  unfold arb_continuation. apply val_enum. constructor; [| constructor; [| constructor]].
  - eapply val_bind; [apply val_opt, va_code |]. intros c Hc. eapply val_bind; [apply val_all |]. intros t _.
    destruct (continue_basic_new c t) as [[r |] | |] eqn:E; [| apply val_fail | apply val_fail | apply val_panic].
    apply val_ret. unfold continue_basic_new, with_arg in E. destruct (text_from_bytes t); try discriminate E.
    cbv zeta in E. destruct (_ && _)%bool in E; [discriminate |]. destruct (_ && _)%bool in E; [discriminate |].
    injection E as <-. exact Hc.
  - apply val_map. eapply val_weaken; [apply val_all |]. intros a _. exact I.
Qed.
Lemma va_response : val (arb_response simplified size) (r_response simplified).
Proof.
  unfold arb_response. apply val_enum. constructor; [| constructor; [| constructor; [| constructor]]]; apply val_map.
  - apply va_continuation.
  - apply va_data.
  - apply va_status.
Qed.
End Bound.

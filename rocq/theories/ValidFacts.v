(** The levels of Valid.v are ordered: [LExact] implies [LDecoded] implies [LType]. *)

From Verif Require Import Bytes BytesFacts Dec Features Nom Types Utf8 Conv Base64 Date Valid OkTac.
Open Scope nat_scope.

Lemma forallb_mono {A} (f g : A -> bool) l :
  (forall x, f x = true -> g x = true) -> forallb f l = true -> forallb g l = true.
Proof. intros H E. now apply (forallb_impl f). Qed.
Lemma forallb_mono_in {A} (f g : A -> bool) l :
  Forall (fun x => f x = true -> g x = true) l -> forallb f l = true -> forallb g l = true.
Proof.
  induction 1 as [| x l Hx _ IH]; [auto |]. cbn. intros E. apply andb_true_iff in E as [E1 E2].
  rewrite Hx, IH; auto.
Qed.
Lemma vopt_mono {A} (f g : A -> bool) o :
  (forall x, f x = true -> g x = true) -> vopt f o = true -> vopt g o = true.
Proof. destruct o; cbn; auto. Qed.
Lemma vpair_mono {A B} (f g : A -> bool) (f' g' : B -> bool) p :
  (forall x, f x = true -> g x = true) -> (forall x, f' x = true -> g' x = true) ->
  vpair f f' p = true -> vpair g g' p = true.
Proof. unfold vpair. intros H1 H2 E. apply andb_true_iff in E as [E1 E2]. rewrite H1, H2; auto. Qed.
Lemma v1_mono {A} (f g : A -> bool) l :
  (forall x, f x = true -> g x = true) -> v1 f l = true -> v1 g l = true.
Proof.
  unfold v1. intros H E. apply andb_true_iff in E as [-> E2]. now apply (forallb_mono f).
Qed.
Lemma v_gated_mono {A} b (f g : A -> bool) l :
  (forall x, f x = true -> g x = true) -> v_gated b f l = true -> v_gated b g l = true.
Proof.
  unfold v_gated. intros H E. apply andb_true_iff in E as [-> E2]. now apply (forallb_mono f).
Qed.

(** Induction principles through lists *)
Section BodyInd.
Variable P : body_structure -> Prop.
Hypothesis Hb : forall b t s x, P (BSSingle b (SFBasic t s) x).
Hypothesis Ht : forall b s n x, P (BSSingle b (SFText s n) x).
Hypothesis Hm : forall b e c n x, P c -> P (BSSingle b (SFMessage e c n) x).
Hypothesis Hl : forall l s x, Forall P l -> P (BSMulti l s x).
Fixpoint body_ind' (b : body_structure) : P b :=
  match b with
  | BSSingle b (SFBasic t s) x => Hb b t s x
  | BSSingle b (SFText s n) x => Ht b s n x
  | BSSingle b (SFMessage e c n) x => Hm b e c n x (body_ind' c)
  | BSMulti l s x =>
    Hl l s x ((fix go l : Forall P l :=
      match l with [] => Forall_nil P | c :: l' => Forall_cons c (body_ind' c) (go l') end) l)
  end.
End BodyInd.
Section BeInd.
Variable P : body_extension -> Prop.
Hypothesis Hs : forall n, P (BENString n).
Hypothesis Hn : forall n, P (BENumber n).
Hypothesis Hl : forall l, Forall P l -> P (BEList l).
Fixpoint be_ind' (b : body_extension) : P b :=
  match b with
  | BENString n => Hs n
  | BENumber n => Hn n
  | BEList l =>
    Hl l ((fix go l : Forall P l :=
      match l with [] => Forall_nil P | c :: l' => Forall_cons c (be_ind' c) (go l') end) l)
  end.
End BeInd.
Section KeyInd.
Variable P : search_key -> Prop.
Hypothesis Hand : forall l, Forall P l -> P (KAnd l).
Hypothesis Hnot : forall k, P k -> P (KNot k).
Hypothesis Hor : forall a b, P a -> P b -> P (KOr a b).
Hypothesis Hleaf : forall k,
  match k with KAnd _ | KNot _ | KOr _ _ => False | _ => True end -> P k.
Fixpoint key_ind' (k : search_key) : P k :=
  match k as k return P k with
  | KAnd l =>
    Hand l ((fix go l : Forall P l :=
      match l with [] => Forall_nil P | c :: l' => Forall_cons c (key_ind' c) (go l') end) l)
  | KNot k => Hnot k (key_ind' k)
  | KOr a b => Hor a b (key_ind' a) (key_ind' b)
  | k => Hleaf k I
  end.
End KeyInd.
Section ThreadInd.
Variable P : thread -> Prop.
Hypothesis H0 : forall p, P (TMembers p None).
Hypothesis H1 : forall p l, Forall P l -> P (TMembers p (Some l)).
Hypothesis H2 : forall l, Forall P l -> P (TNested l).
Fixpoint thread_ind' (t : thread) : P t :=
  let go := fix go l : Forall P l :=
      match l with [] => Forall_nil P | c :: l' => Forall_cons c (thread_ind' c) (go l') end in
  match t with
  | TMembers p None => H0 p
  | TMembers p (Some l) => H1 p l (go l)
  | TNested l => H2 l (go l)
  end.
End ThreadInd.

Section Mono.
Context {F : features}.
Variables a b : level.
Hypothesis Hrt : forall x, only_rt a x = true -> only_rt b x = true.
Hypothesis Hex : forall x, only_exact a x = true -> only_exact b x = true.

Ltac conj :=
  repeat match goal with
  | H : (_ && _)%bool = true |- _ => apply andb_true_iff in H as [? ?]
  | |- (_ && _)%bool = true => apply andb_true_iff; split
  end.
Ltac mono := intros; cbv beta in *; conj; try assumption;
  try solve [auto with vm];
  try solve [first [eapply forallb_mono | eapply vopt_mono | eapply v1_mono | eapply v_gated_mono
        | eapply vpair_mono]; [..| eassumption]; mono].
Hint Resolve Hrt Hex : vm.

Lemma m_literal l : v_literal a l = true -> v_literal b l = true.
Proof. unfold v_literal. mono. Qed.
Lemma m_literal8 l : v_literal8 a l = true -> v_literal8 b l = true.
Proof. unfold v_literal8. mono. Qed.
Hint Resolve m_literal m_literal8 : vm.
Lemma m_sequence_set s : v_sequence_set a s = true -> v_sequence_set b s = true.
Proof. unfold v_sequence_set. mono. Qed.
Hint Resolve m_sequence_set : vm.
Lemma m_istring s : v_istring a s = true -> v_istring b s = true.
Proof. destruct s; cbn [v_istring]; mono. Qed.
Hint Resolve m_istring : vm.
Lemma m_nstring s : v_nstring a s = true -> v_nstring b s = true.
Proof. unfold v_nstring. mono. Qed.
Lemma m_astring s : v_astring a s = true -> v_astring b s = true.
Proof. destruct s; cbn [v_astring]; mono. Qed.
Hint Resolve m_nstring m_astring : vm.
Lemma m_nstring8 s : v_nstring8 a s = true -> v_nstring8 b s = true.
Proof. destruct s; cbn [v_nstring8]; mono. Qed.
Lemma m_lit_or_lit8 s : v_lit_or_lit8 a s = true -> v_lit_or_lit8 b s = true.
Proof. destruct s; cbn [v_lit_or_lit8]; mono. Qed.
Lemma m_mailbox m : v_mailbox a m = true -> v_mailbox b m = true.
Proof. destruct m; cbn [v_mailbox]; mono. Qed.
Lemma m_list_mailbox m : v_list_mailbox a m = true -> v_list_mailbox b m = true.
Proof. destruct m; cbn [v_list_mailbox]; mono. Qed.
Lemma m_flag_fetch f : v_flag_fetch a f = true -> v_flag_fetch b f = true.
Proof. destruct f; cbn [v_flag_fetch]; mono. Qed.
Lemma m_auth m : v_auth_mechanism a m = true -> v_auth_mechanism b m = true.
Proof. destruct m; cbn [v_auth_mechanism]; mono. Qed.
Hint Resolve m_nstring8 m_lit_or_lit8 m_mailbox m_list_mailbox m_flag_fetch m_auth : vm.
Lemma m_address x : v_address a x = true -> v_address b x = true.
Proof. unfold v_address. mono. Qed.
Hint Resolve m_address : vm.
Lemma m_addresses x : v_addresses a x = true -> v_addresses b x = true.
Proof. unfold v_addresses. mono. Qed.
Hint Resolve m_addresses : vm.
Lemma m_envelope x : v_envelope a x = true -> v_envelope b x = true.
Proof. unfold v_envelope. mono. Qed.
Lemma m_be x : v_body_extension a x = true -> v_body_extension b x = true.
Proof.
  induction x as [| | l IH] using be_ind'; cbn [v_body_extension]; mono.
  now apply (forallb_mono_in (v_body_extension a)).
Qed.
Lemma m_params x : v_params a x = true -> v_params b x = true.
Proof. unfold v_params. mono. Qed.
Hint Resolve m_envelope m_be m_params : vm.
Lemma m_location x : v_location a x = true -> v_location b x = true.
Proof. unfold v_location. mono. Qed.
Hint Resolve m_location : vm.
Lemma m_language x : v_language a x = true -> v_language b x = true.
Proof. unfold v_language. mono. Qed.
Hint Resolve m_language : vm.
Lemma m_disposition x : v_disposition a x = true -> v_disposition b x = true.
Proof. unfold v_disposition. mono. Qed.
Hint Resolve m_disposition : vm.
Lemma m_single_ext x : v_single_ext a x = true -> v_single_ext b x = true.
Proof. unfold v_single_ext. mono. Qed.
Lemma m_multi_ext x : v_multi_ext a x = true -> v_multi_ext b x = true.
Proof. unfold v_multi_ext. mono. Qed.
Lemma m_basic x : v_basic a x = true -> v_basic b x = true.
Proof. unfold v_basic. mono. Qed.
Hint Resolve m_single_ext m_multi_ext m_basic : vm.
Lemma m_body_structure x : v_body_structure a x = true -> v_body_structure b x = true.
Proof.
  induction x as [| | | l s x IH] using body_ind'; cbn [v_body_structure]; mono.
  now apply (forallb_mono_in (v_body_structure a)).
Qed.
Hint Resolve m_body_structure : vm.
Lemma m_body x : v_body a x = true -> v_body b x = true.
Proof. unfold v_body. mono. Qed.
Lemma m_section x : v_section a x = true -> v_section b x = true.
Proof. destruct x; cbn [v_section]; mono. Qed.
Hint Resolve m_body m_section : vm.
Lemma m_item_name x : v_item_name a x = true -> v_item_name b x = true.
Proof. destruct x; cbn [v_item_name]; mono. Qed.
Hint Resolve m_item_name : vm.
Lemma m_macro x : v_macro_or_items a x = true -> v_macro_or_items b x = true.
Proof. destruct x; cbn [v_macro_or_items]; mono. Qed.
Lemma m_message_data_item x : v_message_data_item a x = true -> v_message_data_item b x = true.
Proof. destruct x; cbn [v_message_data_item]; mono. Qed.
Lemma m_thread x : v_thread a x = true -> v_thread b x = true.
Proof. unfold v_thread. mono. Qed.
Lemma m_entry_value x : v_entry_value a x = true -> v_entry_value b x = true.
Proof. unfold v_entry_value. mono. Qed.
Hint Resolve m_macro m_message_data_item m_thread m_entry_value : vm.
Lemma m_metadata_response x : v_metadata_response a x = true -> v_metadata_response b x = true.
Proof. destruct x; cbn [v_metadata_response]; mono. Qed.
Lemma m_namespace_ext x : v_namespace_ext a x = true -> v_namespace_ext b x = true.
Proof. unfold v_namespace_ext. mono. Qed.
Hint Resolve m_metadata_response m_namespace_ext : vm.
Lemma m_namespace x : v_namespace a x = true -> v_namespace b x = true.
Proof. unfold v_namespace. mono. Qed.
Lemma m_id_params x : v_id_params a x = true -> v_id_params b x = true.
Proof.
  destruct x as [[| p l] |]; cbn [v_id_params]; mono.
Qed.
Lemma m_search_tree x : v_search_tree a x = true -> v_search_tree b x = true.
Proof.
  induction x as [l IH | k IH | k1 IH1 k2 IH2 | k Hk] using key_ind'; cbn [v_search_tree]; mono.
  - now apply (forallb_mono_in (v_search_tree a)).
  - destruct k; try contradiction; cbn [v_search_tree] in *; mono.
Qed.
Hint Resolve m_namespace m_id_params m_search_tree : vm.
Lemma m_search_key x : v_search_key a x = true -> v_search_key b x = true.
Proof. unfold v_search_key. mono. Qed.
Hint Resolve m_search_key : vm.
Lemma m_select_parameter x : v_select_parameter a x = true -> v_select_parameter b x = true.
Proof. destruct x; cbn [v_select_parameter]; mono. Qed.
Hint Resolve m_select_parameter : vm.
Lemma m_command_body x : v_command_body a x = true -> v_command_body b x = true.
Proof. destruct x; cbn [v_command_body]; mono. Qed.
Hint Resolve m_command_body : vm.
Lemma m_command x : v_command a x = true -> v_command b x = true.
Proof. unfold v_command. mono. Qed.
Lemma m_capability x : v_capability a x = true -> v_capability b x = true.
Proof. destruct x; cbn [v_capability]; mono. Qed.
Hint Resolve m_capability : vm.
Variables o o' : bytes -> bytes -> bool.
Hypothesis Ho : forall s t, o s t = true -> o' s t = true.
Lemma m_code c t : v_code a o c t = true -> v_code b o' c t = true.
Proof.
  destruct c; cbn [v_code]; mono. destruct a, b; cbn in *; auto.
Qed.
Hint Resolve m_code : vm.
Lemma m_code_text c t : v_code_text a o c t = true -> v_code_text b o' c t = true.
Proof. unfold v_code_text. mono. destruct c; mono. Qed.
Hint Resolve m_code_text : vm.
Lemma m_greeting x : v_greeting a o x = true -> v_greeting b o' x = true.
Proof. unfold v_greeting. mono. Qed.
Lemma m_status_body x : v_status_body a o x = true -> v_status_body b o' x = true.
Proof. unfold v_status_body. mono. Qed.
Hint Resolve m_status_body : vm.
Lemma m_status x : v_status a o x = true -> v_status b o' x = true.
Proof. destruct x; cbn [v_status]; mono. Qed.
Lemma m_data x : v_data a x = true -> v_data b x = true.
Proof. destruct x; cbn [v_data]; mono. Qed.
Lemma m_continuation x : v_continuation a o x = true -> v_continuation b o' x = true.
Proof. destruct x as [[c |] t | d]; cbn [v_continuation]; mono. Qed.
Hint Resolve m_status m_data m_continuation : vm.
Lemma m_response x : v_response a o x = true -> v_response b o' x = true.
Proof. destruct x; cbn [v_response]; mono. Qed.
End Mono.

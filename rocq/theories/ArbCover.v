(** What the generators of Arb.v can make: everything that ArbSpec.v does not leave out. *)

From Verif Require Import Bytes BytesFacts Dec Features Nom Types Utf8 Conv SeqSet Base64 Date Ctors
  ValueSpec ValueFacts ValueProps Valid ValidFacts OkTac OkCore OkBody OkCmd OkResp OtherCode RtCmd RtResp DisplayProps
  Arb ArbFacts ArbSpec.
Open Scope nat_scope.

(** ** Rules for [may_make] *)
Lemma mk_ret {A} (a : A) : may_make (fun _ => g_ret a) a.
Proof. exists 0%N. reflexivity. Qed.
Lemma mk_any {A} (P : A -> Prop) a : P a -> may_make (fun _ => g_any P) a.
Proof. exists 0%N. auto. Qed.
Lemma mk_bind {A B} (g : N -> gen A) (f : N -> A -> gen B) a b :
  may_make (fun s => f s a) b -> may_make g a -> may_make (fun s => g_bind (g s) (f s)) b.
Proof.
  intros [n1 H1] [n2 H2]. exists (N.max n1 n2). intros s Hs. left. exists a. split; [apply H2 | apply H1]; lia.
Qed.
Lemma mk_map {A B} (f : A -> B) (g : N -> gen A) a : may_make g a -> may_make (fun s => g_map f (g s)) (f a).
Proof. intros H. unfold g_map. eapply mk_bind; [apply mk_ret | exact H]. Qed.
Lemma mk_none {A} (g : N -> gen A) : may_make (fun s => g_option (g s)) None.
Proof. exists 0%N. intros s _. right. now left. Qed.
Lemma mk_some {A} (g : N -> gen A) a : may_make g a -> may_make (fun s => g_option (g s)) (Some a).
Proof.
  intros H. destruct (mk_map Some g a H) as [n K]. exists n. intros s Hs. right. right. now apply K.
Qed.
Lemma mk_pair {A B} (g : N -> gen A) (h : N -> gen B) a b : may_make g a -> may_make h b ->
  may_make (fun s => g_pair (g s) (h s)) (a, b).
Proof.
  intros H K. unfold g_pair. eapply mk_bind; [| exact H]. cbv beta. eapply mk_bind; [| exact K]. apply mk_ret.
Qed.
Lemma mk_times {A} (g : N -> gen A) l : Forall (may_make g) l -> may_make (fun s => g_times (length l) (g s)) l.
Proof.
  induction 1 as [| a l Ha Hl IH]; cbn [length g_times]; [apply mk_ret |].
  eapply mk_bind; [| exact Ha]. cbv beta. eapply mk_bind; [| exact IH]. apply mk_ret.
Qed.
Lemma mk_vec {A} (g : N -> gen A) l : Forall (may_make g) l -> may_make (fun s => g_vec (g s)) l.
Proof. intros H. unfold g_vec. eapply mk_bind; [exact (mk_times g l H) | now apply mk_any]. Qed.
Lemma mk_vec1 {A} (g : N -> gen A) l : nonempty l = true -> Forall (may_make g) l ->
  may_make (fun s => arb_vec1 (g s)) l.
Proof.
  intros Ne H. unfold arb_vec1. eapply mk_bind; [| exact (mk_vec g l H)]. cbv beta.
  destruct l; [discriminate |]. apply mk_ret.
Qed.
Lemma mk_here {A} (g : N -> gen A) l a : may_make g a -> may_make (fun s => g_enum (g s :: l s)) a.
Proof. intros [n H]. exists n. intros s Hs. right. exists (g s). split; [now left | auto]. Qed.
Lemma mk_there {A} (g : N -> gen A) l a : may_make (fun s => g_enum (l s)) a ->
  may_make (fun s => g_enum (g s :: l s)) a.
Proof.
  intros [n H]. exists n. intros s Hs. destruct (H s Hs) as [K | (h & I1 & K)]; [discriminate |].
  right. exists h. split; [now right | exact K].
Qed.
Lemma mk_left {A} (l m : N -> list (gen A)) a : may_make (fun s => g_enum (l s)) a ->
  may_make (fun s => g_enum (l s ++ m s)) a.
Proof.
  intros [n H]. exists n. intros s Hs. destruct (H s Hs) as [K | (h & I1 & K)]; [discriminate |].
  right. exists h. split; [apply in_or_app; now left | exact K].
Qed.
Lemma mk_right {A} (l m : N -> list (gen A)) a : may_make (fun s => g_enum (m s)) a ->
  may_make (fun s => g_enum (l s ++ m s)) a.
Proof.
  intros [n H]. exists n. intros s Hs. destruct (H s Hs) as [K | (h & I1 & K)]; [discriminate |].
  right. exists h. split; [apply in_or_app; now right | exact K].
Qed.
Lemma mk_cfg {A} b (l : N -> list (gen A)) a : b = true -> may_make (fun s => g_enum (l s)) a ->
  may_make (fun s => g_enum (g_cfg b (l s))) a.
Proof. now intros ->. Qed.
(** [match] on a number: one of the arms up to the last number *)
Lemma mk_match {A} lo hi (arms : N -> list (gen A)) a :
  may_make (fun s => g_enum (firstn (S hi - lo) (arms s))) a -> lo <= hi -> may_make (fun s => g_match lo hi lo (arms s)) a.
Proof.
  intros [n H] L. exists n. intros s Hs. destruct (H s Hs) as [K | (h & I1 & K)]; [discriminate |].
  destruct (In_nth _ _ g_panic I1) as (i & Hi & E). rewrite firstn_length in Hi.
  left. exists (lo + i). split; [cbn; lia |].
  destruct (Nat.ltb_spec (lo + i) lo); [lia |]. replace (lo + i - lo) with i by lia.
  assert (X : nth i (arms s) g_panic = h).
  { rewrite <- E. rewrite <- (firstn_skipn (S hi - lo) (arms s)) at 1. apply app_nth1. rewrite firstn_length. lia. }
  now rewrite X.
Qed.
Lemma mk_ext {A} (g h : N -> gen A) a : (forall s, g s = h s) -> may_make h a -> may_make g a.
Proof. intros E [n H]. exists n. intros s Hs. rewrite E. auto. Qed.

(** Lists, options and pairs of things with and without a restriction *)
Lemma Forall_mk {A} (g : N -> gen A) (v : A -> bool) l : (forall a, v a = true -> may_make g a) ->
  forallb v l = true -> Forall (may_make g) l.
Proof. intros K H. apply Forall_forall. rewrite forallb_forall in H. auto. Qed.
Lemma Forall_mk2 {A} (g : N -> gen A) (v r : A -> bool) l :
  (forall a, v a = true -> r a = true -> may_make g a) ->
  forallb v l = true -> forallb r l = true -> Forall (may_make g) l.
Proof. intros K H H'. apply Forall_forall. rewrite forallb_forall in *. auto. Qed.

Lemma mk_field {A} b (g : N -> gen A) l : (b || negb (nonempty l))%bool = true -> Forall (may_make g) l ->
  may_make (fun s => g_field b (g s)) l.
Proof.
  intros B H. unfold g_field. destruct b; [now apply mk_vec |]. destruct l; [apply mk_ret | discriminate].
Qed.
Create HintDb mk.
Ltac vs := repeat match goal with
  | H : (_ && _)%bool = true |- _ => apply andb_true_iff in H as [? ?]
  | H : v1 _ _ = true |- _ => unfold v1 in H
  | H : v_gated _ _ _ = true |- _ => unfold v_gated in H
  | H : vpair _ _ _ = true |- _ => unfold vpair in H; cbn [fst snd] in H
  | H : only_exact _ _ = true |- _ => clear H
  | H : only_rt _ _ = true |- _ => clear H
  end.
Ltac mk := cbv beta; lazymatch goal with
  | |- may_make (fun _ => g_ret _) _ => apply mk_ret
  | |- may_make (fun _ => g_map _ _) _ => apply mk_map; mk
  | |- may_make (fun _ => g_bind _ _) _ => eapply mk_bind; [mk | mk]
  | |- may_make (fun _ => g_option _) None => apply mk_none
  | |- may_make (fun _ => g_option _) (Some _) => apply mk_some; cbn [vopt] in *; mk
  | |- may_make (fun _ => g_option _) ?o => is_var o; destruct o; mk
  | |- may_make (fun _ => g_pair _ _) (_, _) => apply mk_pair; mk
  | |- may_make (fun _ => g_pair _ _) ?p => is_var p; destruct p; vs; mk
  | |- may_make (fun _ => g_vec _) _ => apply mk_vec; mkl
  | |- may_make (fun _ => arb_vec1 _) _ => apply mk_vec1; [assumption | mkl]
  | |- may_make (fun _ => g_field _ _) _ => apply mk_field; [assumption | mkl]
  | |- may_make (fun _ => g_bool) _ => now apply mk_any
  | |- may_make (fun _ => g_enum _) _ => mke
  | |- may_make (fun _ => g_match _ _ _ _) _ => apply mk_match; [cbn [firstn Nat.sub]; mke | lia]
  | |- may_make _ _ => solve [eauto 3 with mk]
  end
with mkl := lazymatch goal with
  | H : Forall (may_make _) ?l |- Forall _ ?l => exact H
  | H1 : forallb ?v ?l = true, H2 : forallb ?r ?l = true |- Forall _ ?l =>
    first [ apply (Forall_mk2 _ v r); [intros ? ? ?; cbv beta in *; vs; mk | exact H1 | exact H2]
          | apply (Forall_mk2 _ r v); [intros ? ? ?; cbv beta in *; vs; mk | exact H2 | exact H1] ]
  | H1 : forallb ?v ?l = true |- Forall _ ?l => apply (Forall_mk _ v); [intros ? ?; cbv beta in *; vs; mk | exact H1]
  | |- Forall _ _ => apply Forall_forall; intros ? _; mk
  end
with mke := lazymatch goal with
  | |- may_make (fun s => g_enum (_ :: _)) _ => first [apply mk_here; solve [mk] | apply mk_there; mke]
  | |- may_make (fun s => g_enum (_ ++ _)) _ => first [apply mk_left; solve [mke] | apply mk_right; mke]
  | |- may_make (fun s => g_enum (g_cfg _ _)) _ => apply mk_cfg; [assumption | mke]
  end.

Section Cover.
Context {F : features}.

Lemma mk_u32 n : v_u32 n = true -> may_make (fun _ => g_u32) n.
Proof. intros H. apply mk_any. now apply N.leb_le in H. Qed.
Lemma mk_u64 n : v_u64 n = true -> may_make (fun _ => g_u64) n.
Proof. intros H. apply mk_any. now apply N.leb_le in H. Qed.
Lemma mk_nz32 n : v_nz32 n = true -> may_make (fun _ => g_nz32) n.
Proof.
  unfold v_nz32. intros H. vs. apply mk_any. apply N.leb_le in H0. apply negb_true_iff, N.eqb_neq in H. lia.
Qed.
Lemma mk_nz64 n : v_nz64 n = true -> may_make (fun _ => g_nz64) n.
Proof.
  unfold v_nz64. intros H. vs. apply mk_any. apply N.leb_le in H0. apply negb_true_iff, N.eqb_neq in H. lia.
Qed.
Hint Resolve mk_u32 mk_u64 mk_nz32 mk_nz64 : mk.
Lemma mk_str s : utf8_ok s = true -> may_make g_str s.
Proof. intros H. exists (lenN s). intros size L. now split. Qed.
Lemma mk_bytes s : may_make g_bytes s.
Proof. exists (lenN s). intros size L. exact L. Qed.
Hint Resolve mk_bytes mk_str : mk.

(** *** Strings *)
Lemma mk_by_try {A} (f : bytes -> conv A) s a : utf8_ok s = true -> f s = COk a ->
  may_make (fun size => g_bind (g_str size) (fun s => g_try (f s))) a.
Proof. intros U E. eapply mk_bind; [| apply mk_str, U]. cbv beta. rewrite E. apply mk_ret. Qed.
Lemma mk_checked {X : byte -> Prop} (v : bytes -> conv unit) s :
  converts_some X (fun s => s) (fun s => cbind (v s) (fun _ => utf8_unwrap s)) -> some_of X s ->
  may_make (fun size => g_bind (g_str size) (fun s => g_try (cmap (fun _ => s) (v s)))) s.
Proof.
  intros C H. pose proof (proj1 C s H) as E. cbv beta in E. destruct (v s) eqn:Ev in E; try discriminate E. cbn [cbind] in E.
  apply (mk_by_try (fun s => cmap (fun _ => s) (v s)) s); [| now rewrite Ev].
  unfold utf8_unwrap in E. revert E. destruct (utf8_ok s); intros E; [reflexivity | discriminate E].
Qed.
Lemma mk_atom s : atom_ok s = true -> may_make arb_atom s.
Proof. intros H. apply atom_ok_spec in H. exact (mk_checked validate_atom s atom_conv H). Qed.
Lemma mk_atom_ext s : atom_ext_ok s = true -> may_make arb_atom_ext s.
Proof. intros H. apply atom_ext_ok_spec in H. exact (mk_checked validate_atom_ext s atom_ext_conv H). Qed.
Lemma mk_quoted s : quoted_ok s = true -> may_make arb_quoted s.
Proof.
  intros H. apply quoted_ok_spec in H. pose proof (proj1 quoted_conv s H) as E. unfold quoted_from_bytes in E.
  destruct (validate_quoted s) eqn:Ev in E; try discriminate E. cbn [cbind] in E.
  apply (mk_by_try (fun s => cmap (fun _ => s) (validate_quoted s)) s); [| now rewrite Ev].
  unfold utf8_unwrap in E. revert E. destruct (utf8_ok s); intros E; [reflexivity | discriminate E].
Qed.
Lemma mk_tag s : tag_ok s = true -> may_make arb_tag s.
Proof. intros H. apply tag_ok_spec in H. exact (mk_checked validate_tag s tag_conv H). Qed.
Lemma mk_text s : text_ok s = true -> may_make arb_text s.
Proof. intros H. apply text_ok_spec in H. exact (mk_checked validate_text s text_conv H). Qed.
Lemma mk_list_char_string s : list_char_string_ok s = true -> may_make arb_list_char_string s.
Proof.
  intros H. pose proof H as H'. apply list_char_string_ok_spec in H.
  apply (mk_by_try list_char_string_from_str s); [| exact (proj1 list_char_conv s H)].
  apply utf8_chars. destruct H as [_ H]. revert H. apply Forall_sub. intros b K.
  destruct K as [K | [K | K]]; [now apply atom_char_char | | now apply resp_char].
  destruct K as [-> | ->]; unfold CHAR; cbn; lia.
Qed.
Hint Resolve mk_atom mk_atom_ext mk_quoted mk_tag mk_text mk_list_char_string : mk.

Lemma mk_quoted_char b : quoted_char_ok b = true -> may_make (fun _ => arb_quoted_char) b.
Proof.
  intros H. unfold arb_quoted_char.
  assert (T : byte_trunc (bN b) = b).
  { unfold byte_trunc. rewrite N.mod_small by apply bN_lt. unfold bN. now rewrite Byte.of_to_N. }
  eapply mk_bind; [| apply (mk_any _ (bN b)); left; pose proof (bN_lt b); lia]. cbv beta.
  unfold quoted_char_from, validate_quoted_char. unfold quoted_char_ok in H. vs. rewrite T, H.
  assert (X : (is_any_text_char_except_quoted_specials b || N.eqb (bN b) (bN bBS) || N.eqb (bN b) (bN bDQ))%bool = true).
  { rewrite <- !orb_assoc in *. apply orb_true_iff in H0 as [H0 | H0]; [now rewrite H0 |]. apply orb_true_iff. right.
    apply orb_true_iff in H0 as [H0 | H0]; apply beq_eq in H0; subst b; reflexivity. }
  rewrite X. cbn [andb cbind cmap g_try]. rewrite T. apply mk_ret.
Qed.
Lemma atom_chars a : atom_ok a = true -> Forall CHAR a.
Proof. intros H. apply atom_ok_spec in H as [_ H]. revert H. apply Forall_sub, atom_char_char. Qed.
Lemma bs_char : CHAR bBS.
Proof. unfold CHAR. cbn. lia. Qed.
Lemma mk_flag f : v_flag f = true -> may_make arb_flag f.
Proof.
  intros V. destruct C52_text_and_back as (_ & K & _). apply (mk_by_try flag_from_str (flag_str f)); [| now apply K].
  apply utf8_chars. destruct f as [| | | | | a | a]; cbn [v_flag flag_str] in *; vs.
  6: constructor; [apply bs_char | now apply atom_chars].
  6: now apply atom_chars.
  all: repeat (constructor; [unfold CHAR; cbn; lia |]); constructor.
Qed.
Lemma mk_attribute_flag f : v_attribute_flag f = true -> may_make arb_attribute_flag f.
Proof.
  intros V. destruct C52_text_and_back as (_ & _ & K & _).
  apply (mk_by_try attribute_flag_from_str (attribute_flag_str f)); [| now apply K].
  apply utf8_chars. destruct f as [| | | | | a | a]; cbn [v_attribute_flag attribute_flag_str] in *; vs.
  6: constructor; [apply bs_char | constructor; [apply bs_char | now apply atom_chars]].
  6: now apply atom_chars.
  all: repeat (constructor; [unfold CHAR; cbn; lia |]); constructor.
Qed.
Lemma r_capability_ok c : v_capability LType c = true -> r_capability c = true -> v_capability LDecoded c = true.
Proof.
  destruct c; cbn [v_capability r_capability]; intros V R; try exact V; try discriminate.
  - match goal with m : auth_mechanism |- _ => destruct m end; cbn in *; auto; discriminate.
  - vs. destruct r; cbn [v_resource only_rt andb] in *; try reflexivity. now rewrite H, R.
Qed.
Lemma mk_capability c : v_capability LType c = true -> r_capability c = true -> may_make arb_capability c.
Proof.
  intros V R. pose proof (r_capability_ok c V R) as W. apply capability_from_str in W as [A E].
  unfold arb_capability. eapply mk_bind; [| apply mk_atom, A]. cbv beta. rewrite E. apply mk_ret.
Qed.
Lemma mk_flag_name f : v_flag_name f = true -> may_make arb_flag_name f.
Proof.
  intros V. destruct C52_text_and_back as (_ & _ & _ & _ & _ & _ & _ & _ & _ & K).
  destruct (K f V) as (a & _ & E). destruct (atom_from_bytes a) as [a' | |] eqn:Ea; try discriminate E. injection E as E.
  destruct (converts_some_cases _ _ _ atom_conv a) as [[A X] | [_ [e X]]]; rewrite X in Ea; [| discriminate].
  injection Ea as <-. unfold arb_flag_name. eapply mk_bind; [| apply mk_atom, atom_ok_spec, A]. cbv beta.
  rewrite <- E. apply mk_ret.
Qed.
Lemma mk_threading a : v_threading_algorithm a = true -> may_make arb_threading_algorithm a.
Proof.
  intros V. apply threading_from_str in V as [A E]. unfold arb_threading_algorithm.
  eapply mk_bind; [| apply mk_atom, A]. cbv beta. rewrite E. apply mk_ret.
Qed.
Lemma mk_via_atom {A} (f : bytes -> A) s : atom_ok s = true ->
  may_make (fun size => g_bind (g_str size) (fun s => g_try (cmap f (atom_from_bytes s)))) (f s).
Proof.
  intros H. apply (mk_by_try (fun s => cmap f (atom_from_bytes s)) s); [now apply utf8_chars, atom_chars |].
  now rewrite (atom_conv_ok _ H).
Qed.
Lemma mk_resource r : v_resource r = true -> may_make arb_resource r.
Proof. intros V. apply resource_from_str in V as [A E]. rewrite <- E at 1. now apply mk_via_atom. Qed.
Lemma mk_auth m : v_auth_mechanism LType m = true -> r_auth_mechanism m = true -> may_make arb_auth_mechanism m.
Proof.
  intros V R. assert (W : v_auth_mechanism LDecoded m = true) by (destruct m; cbn in *; auto).
  apply auth_from_str in W as [A E]. rewrite <- E at 1. now apply mk_via_atom.
Qed.
Lemma mk_enable c : v_capability_enable c = true -> may_make arb_capability_enable c.
Proof.
  intros V. destruct C52_text_and_back as (_ & _ & _ & _ & _ & K & _).
  apply (mk_by_try capability_enable_from_str (capability_enable_str c)); [| now apply K].
  apply enable_from in V as [A _]. now apply utf8_chars, atom_chars.
Qed.
Hint Resolve mk_quoted_char mk_flag mk_attribute_flag mk_capability mk_flag_name mk_threading mk_resource mk_auth mk_enable : mk.

Lemma mk_literal_mode m : may_make (fun _ => arb_literal_mode) m.
Proof. unfold arb_literal_mode. destruct m; mk. Qed.
Hint Resolve mk_literal_mode : mk.
Lemma mk_literal l : v_literal LType l = true -> may_make arb_literal l.
Proof.
  unfold v_literal. intros H. vs. destruct l as [d m]. cbn [lit_data] in H. apply literal_ok_spec in H.
  unfold arb_literal. eapply mk_bind; [| apply (mk_bytes d)]. cbv beta. rewrite (proj1 literal_conv d H).
  cbn [lit_data]. mk.
Qed.
Lemma mk_literal8 l : may_make arb_literal8 l.
Proof. destruct l as [d m]. unfold arb_literal8. mk. Qed.
Hint Resolve mk_literal mk_literal8 : mk.
Lemma mk_istring s : v_istring LType s = true -> r_istring s = true -> may_make arb_istring s.
Proof.
  intros V R. destruct s as [s | s | l]; cbn [v_istring r_istring] in *.
  - unfold arb_istring. destruct ext_utf8; mk.
  - vs. unfold arb_istring. rewrite H. apply mk_match; [cbn [firstn Nat.sub] | lia]. apply mk_there, mk_here.
    eapply mk_bind; [| apply mk_str, H1]. cbv beta.
    destruct (check_cases is_text_char s) as [[E C] | [e E]]; unfold validate_quoted; rewrite E; [| apply mk_ret].
    unfold quoted_ok in R. rewrite C in R. discriminate.
  - unfold arb_istring. destruct ext_utf8; mk.
Qed.
Hint Resolve mk_istring : mk.
Lemma mk_nstring s : v_nstring LType s = true -> r_nstring s = true -> may_make arb_nstring s.
Proof. unfold arb_nstring, v_nstring, r_nstring. intros V R. mk. Qed.
Hint Resolve mk_nstring : mk.
Lemma mk_astring s : v_astring LType s = true -> r_astring s = true -> may_make arb_astring s.
Proof. unfold arb_astring. destruct s; cbn [v_astring r_astring]; intros V R; mk. Qed.
Lemma mk_charset s : v_charset s = true -> may_make arb_charset s.
Proof. unfold arb_charset. destruct s; cbn [v_charset]; intros V; mk. Qed.
Lemma mk_lit_or_lit8 s : v_lit_or_lit8 LType s = true -> may_make arb_lit_or_lit8 s.
Proof. unfold arb_lit_or_lit8. destruct s; cbn [v_lit_or_lit8]; intros V; mk. Qed.
Lemma mk_nstring8 s : v_nstring8 LType s = true -> r_nstring8 s = true -> may_make arb_nstring8 s.
Proof. unfold arb_nstring8. destruct s; cbn [v_nstring8 r_nstring8]; intros V R; mk. Qed.
Hint Resolve mk_astring mk_charset mk_lit_or_lit8 mk_nstring8 : mk.
Lemma mk_mailbox m : v_mailbox LType m = true -> r_mailbox m = true -> may_make arb_mailbox m.
Proof.
  destruct m as [| a]; intros V R.
  - apply (mk_by_try mailbox_from_bytes (bs "inbox")); reflexivity.
  - cbn [v_mailbox] in V. vs. unfold mailbox_other_ok in H0. apply negb_true_iff in H0.
    set (s := astring_bytes a) in *.
    destruct (mailbox_conv s) as (_ & M & _). destruct (astring_conv s) as (K1 & K2 & K3 & _).
    assert (N' : ~ same_letters s (bs "inbox")).
    { intros K. apply same_letters_spec in K. unfold eqi in H0. rewrite K, beqs_refl in H0. discriminate. }
    specialize (M N'). clear N'. apply (mk_by_try mailbox_from_bytes s).
    + destruct a as [a | [q | u | l]]; cbn [v_astring v_istring r_mailbox astring_bytes istring_bytes] in *; subst s; vs;
        try assumption; try discriminate.
      * apply atom_ext_ok_spec in H as [_ H]. apply utf8_chars. revert H. apply Forall_sub, astring_char_char.
      * apply quoted_ok_spec in H. apply utf8_chars. revert H. apply Forall_sub, text_char_char.
    + apply M. destruct a as [a | [q | u | l]]; cbn [v_astring v_istring r_mailbox astring_bytes istring_bytes] in *; subst s; vs; try discriminate.
      * now apply K1, atom_ext_ok_spec.
      * apply K2; [| now apply quoted_ok_spec]. intros X. apply atom_ext_ok_spec in X. now rewrite X in R.
      * unfold v_literal in H. vs. destruct l as [d []]; cbn [lit_data lit_mode_of] in *; [| discriminate].
        apply K3; [| now apply literal_ok_spec]. intros X. apply quoted_ok_spec in X. rewrite X in *. discriminate.
Qed.
Hint Resolve mk_mailbox : mk.

(** *** Sequences, dates, flags, status *)
Lemma mk_seq_or_uid s : v_seq_or_uid s = true -> may_make (fun _ => arb_seq_or_uid) s.
Proof. unfold arb_seq_or_uid. destruct s; cbn [v_seq_or_uid]; intros V; mk. Qed.
Hint Resolve mk_seq_or_uid : mk.
Lemma mk_sequence s : v_sequence s = true -> may_make (fun _ => arb_sequence) s.
Proof. unfold arb_sequence. destruct s; cbn [v_sequence]; intros V; vs; mk. Qed.
Hint Resolve mk_sequence : mk.
Lemma mk_sequence_set s : v_sequence_set LType s = true -> may_make (fun _ => arb_sequence_set) s.
Proof. unfold arb_sequence_set, v_sequence_set. intros V; vs; mk. Qed.
Lemma mk_uid_element s : v_uid_element s = true ->
  may_make (fun _ => g_enum [g_map UESingle g_nz32; g_bind g_nz32 (fun a => g_bind g_nz32 (fun b => g_ret (UERange a b)))]) s.
Proof. destruct s; cbn [v_uid_element]; intros V; vs; mk. Qed.
Lemma mk_uid_set s : v_uid_set s = true -> may_make (fun _ => arb_uid_set) s.
Proof.
  unfold arb_uid_set, v_uid_set. intros V; vs. apply mk_vec1; [assumption |].
  apply (Forall_mk _ v_uid_element); [exact mk_uid_element | assumption].
Qed.
Hint Resolve mk_sequence_set mk_uid_set : mk.
Lemma mk_naive_date d : v_date d = true -> may_make (fun _ => arb_naive_date) d.
Proof.
  unfold v_date. intros V. vs. destruct d as [y m d]. cbn [d_year d_month d_day] in *. apply N.leb_le in H0.
  unfold arb_naive_date. apply (mk_bind _ _ (Z.of_N y)); [| now apply mk_any].
  apply (mk_bind _ _ (m, d)); [| apply mk_any; cbn [fst snd]; now rewrite N2Z.id].
  unfold validate_naive_date.
  assert (X : (Z.leb 0 (Z.of_N y) && Z.leb (Z.of_N y) 9999)%bool = true)
    by (apply andb_true_iff; split; apply Z.leb_le; lia).
  rewrite X. cbn [negb fst snd]. rewrite N2Z.id. apply mk_ret.
Qed.
Lemma days_31 y m : (days_in_month y m <= 31)%N.
Proof.
  unfold days_in_month.
  repeat match goal with |- context [match ?x with _ => _ end] => destruct x end; lia.
Qed.
Lemma mk_date_time t : v_date_time t = true -> r_date_time t = true -> may_make (fun _ => arb_date_time) t.
Proof.
  unfold v_date_time, v_date, r_date_time. intros V R. vs. destruct t as [[y m d] h mi s off].
  cbn [dt_date dt_hour dt_min dt_sec dt_offset d_year d_month d_day] in *.
  apply N.leb_le in H6. apply N.ltb_lt in H3, H4, H5. apply Z.ltb_lt in H1. apply Z.leb_le in R. apply Z.eqb_eq in H0.
  pose proof (Z.quot_rem' off 60) as Q. rewrite H0, Z.add_0_r in Q.
  assert (B : (1 <= m <= 12 /\ 1 <= d <= 31)%N).
  { unfold ymd_ok in H. pose proof (days_31 y m). apply andb_true_iff in H as [H D]. apply andb_true_iff in H as [H E].
    apply andb_true_iff in H as [H M]. apply N.leb_le in H, M, E, D. lia. }
  unfold arb_date_time. apply (mk_bind _ _ y); [| now apply mk_any]. apply (mk_bind _ _ m); [| now apply mk_any].
  apply (mk_bind _ _ d); [| now apply mk_any]. rewrite H. cbn [negb].
  apply (mk_bind _ _ (h, mi, s, 0%N)); [| apply mk_any; repeat split; lia].
  set (minutes := if Z.leb off (23 * 3600) then 0%Z else ((off - 23 * 3600) / 60)%Z).
  set (seconds := (off - minutes * 60)%Z).
  assert (D : (off - 23 * 3600 = 60 * (Z.quot off 60 - 1380))%Z) by lia.
  assert (Bm : (0 <= minutes <= 59 /\ 0 <= seconds <= 23 * 3600)%Z).
  { unfold seconds, minutes. destruct (Z.leb_spec off (23 * 3600)); [lia |].
    rewrite D. rewrite (Z.mul_comm 60), Z.div_mul by lia. lia. }
  apply (mk_bind _ _ seconds); [| apply mk_any; apply Bm]. apply (mk_bind _ _ minutes); [| apply mk_any; apply Bm].
  cbv zeta. replace (seconds + minutes * 60)%Z with off by (unfold seconds; lia).
  assert (X : (Z.ltb (-86400) off && Z.ltb off 86400)%bool = true) by (apply andb_true_iff; split; apply Z.ltb_lt; lia).
  rewrite X. cbn [negb]. unfold validate_date_time.
  assert (X' : (Z.leb 0 (Z.of_N y) && Z.leb (Z.of_N y) 9999)%bool = true) by (apply andb_true_iff; split; apply Z.leb_le; lia).
  rewrite X', H0. apply mk_ret.
Qed.
Hint Resolve mk_naive_date mk_date_time : mk.
Lemma mk_flag_fetch f : v_flag_fetch LType f = true -> may_make arb_flag_fetch f.
Proof. unfold arb_flag_fetch. destruct f; cbn [v_flag_fetch]; intros V; vs; mk. Qed.
Lemma mk_flag_perm f : v_flag_perm f = true -> may_make arb_flag_perm f.
Proof. unfold arb_flag_perm. destruct f; cbn [v_flag_perm]; intros V; vs; mk. Qed.
Lemma mk_store_type f : may_make (fun _ => arb_store_type) f.
Proof. unfold arb_store_type. destruct f; mk. Qed.
Lemma mk_store_response f : may_make (fun _ => arb_store_response) f.
Proof. unfold arb_store_response. destruct f; mk. Qed.
Lemma mk_status_name f : v_status_name f = true -> may_make (fun _ => arb_status_name) f.
Proof. unfold arb_status_name. destruct f; cbn [v_status_name]; intros V; mk. Qed.
Lemma mk_status_item f : v_status_item f = true -> may_make (fun _ => arb_status_item) f.
Proof. unfold arb_status_item. destruct f; cbn [v_status_item]; intros V; vs; mk. Qed.
Lemma mk_list_mailbox f : v_list_mailbox LType f = true -> r_list_mailbox f = true -> may_make arb_list_mailbox f.
Proof. unfold arb_list_mailbox. destruct f; cbn [v_list_mailbox r_list_mailbox]; intros V R; mk. Qed.
Hint Resolve mk_flag_fetch mk_flag_perm mk_store_type mk_store_response mk_status_name mk_status_item mk_list_mailbox : mk.
Lemma mk_entry_type_req f : may_make (fun _ => arb_entry_type_req) f.
Proof. unfold arb_entry_type_req. destruct f; mk. Qed.
Hint Resolve mk_entry_type_req : mk.

(** *** Search keys *)
Lemma mk_nonempty_or {A} (g leaf : N -> gen A) l : nonempty l = true -> Forall (may_make g) l ->
  may_make (fun s => g_bind g_len (fun n => g_bind (g_times n (g s)) (fun l => g_nonempty_or l (leaf s)))) l.
Proof.
  intros Ne H. eapply mk_bind; [| now apply (mk_any _ (length l))]. cbv beta.
  eapply mk_bind; [| exact (mk_times g l H)]. cbv beta. destruct l; [discriminate |]. apply mk_ret.
Qed.
Lemma mk_nonempty_or' {A B} (g leaf : N -> gen A) (f : N -> list A -> gen B) l b : nonempty l = true -> Forall (may_make g) l ->
  may_make (fun s => f s l) b ->
  may_make (fun s => g_bind g_len (fun n => g_bind (g_times n (g s)) (fun l => g_bind (g_nonempty_or l (leaf s)) (f s)))) b.
Proof.
  intros Ne H K. eapply mk_bind; [| now apply (mk_any _ (length l))]. cbv beta.
  eapply mk_bind; [| exact (mk_times g l H)]. cbv beta. apply (mk_bind _ _ l); [exact K |].
  destruct l; [discriminate |]. apply mk_ret.
Qed.
Lemma mk_nested {A B} (g leaf : N -> gen A) (f : list A -> B) l : nonempty l = true -> Forall (may_make g) l ->
  may_make (fun s => g_bind g_len (fun n => g_bind (g_times n (g s)) (fun l => g_map f (g_nonempty_or l (leaf s))))) (f l).
Proof.
  intros Ne H. eapply mk_bind; [| now apply (mk_any _ (length l))]. cbv beta.
  eapply mk_bind; [| exact (mk_times g l H)]. cbv beta. destruct l; [discriminate |]. cbn [g_nonempty_or].
  apply mk_map, mk_ret.
Qed.
Lemma mk_search_key d : forall k, v_search_tree LType k = true -> r_search_key d k = true ->
  may_make (fun s => arb_search_key_limited s d) k.
Proof.
  induction d as [| d IH]; intros k V R.
  - cbn [arb_search_key_limited]. unfold arb_search_key_leaf.
    destruct k; cbn [v_search_tree r_search_key] in *; try discriminate R; vs; mk.
  - cbn [arb_search_key_limited].
    cbv zeta. apply mk_match; [| lia].
    destruct ext_condstore_qresync eqn:X; cbn [g_cfg app firstn Nat.sub];
    destruct k; cbn [v_search_tree r_search_key] in *; vs; try (rewrite X in V; discriminate V); try solve [mk].
    1, 2: apply mk_here, mk_nested; [assumption |]; apply (Forall_mk2 _ (v_search_tree LType) (r_search_key d)); assumption.
    congruence.
Qed.
Variable simplified : bool.
Lemma mk_arb_search_key k : v_search_key LType k = true -> r_search_key (key_depth simplified) k = true ->
  may_make (arb_search_key simplified) k.
Proof.
  unfold v_search_key. intros V R. vs. apply (mk_ext _ (fun s => arb_search_key_limited s (key_depth simplified))).
  - intros s. unfold arb_search_key, key_depth. now destruct simplified.
  - now apply mk_search_key.
Qed.
Hint Resolve mk_arb_search_key : mk.

(** *** Envelopes and bodies *)
Lemma mk_address a : v_address LType a = true -> r_address a = true -> may_make arb_address a.
Proof. destruct a. unfold v_address, r_address, arb_address. cbn. intros V R. vs. mk. Qed.
Hint Resolve mk_address : mk.
Lemma mk_envelope e : v_envelope LType e = true -> r_envelope e = true -> may_make arb_envelope e.
Proof. destruct e. unfold v_envelope, r_envelope, v_addresses, arb_envelope. cbn. intros V R. vs. mk. Qed.
Hint Resolve mk_envelope : mk.
Lemma mk_body_extension b : v_body_extension LType b = true -> r_body_extension b = true ->
  may_make (arb_body_extension simplified) b.
Proof.
  intros V R. destruct b as [n | n | l]; cbn [v_body_extension r_body_extension] in *; [| | discriminate].
  all: unfold arb_body_extension; destruct simplified; cbn [arb_body_extension_limited]; unfold arb_body_extension_leaf; mk.
Qed.
Hint Resolve mk_body_extension : mk.
Lemma mk_params l : v_params LType l = true -> r_params l = true -> may_make arb_params l.
Proof. unfold v_params, r_params, arb_params. intros V R. mk. Qed.
Hint Resolve mk_params : mk.
Lemma mk_location l : v_location LType l = true -> r_location l = true -> may_make (arb_location simplified) l.
Proof. destruct l. unfold v_location, r_location, arb_location. cbn. intros V R. vs. mk. Qed.
Hint Resolve mk_location : mk.
Lemma mk_language l : v_language LType l = true -> r_language l = true -> may_make (arb_language simplified) l.
Proof. destruct l. unfold v_language, r_language, arb_language. cbn. intros V R. vs. mk. Qed.
Hint Resolve mk_language : mk.
Lemma mk_disposition d : v_disposition LType d = true -> r_disposition d = true -> may_make (arb_disposition simplified) d.
Proof. destruct d. unfold v_disposition, r_disposition, arb_disposition. cbn. intros V R. vs. mk. Qed.
Hint Resolve mk_disposition : mk.
Lemma mk_single_ext s : v_single_ext LType s = true -> r_single_ext s = true -> may_make (arb_single_ext simplified) s.
Proof. destruct s. unfold v_single_ext, r_single_ext, arb_single_ext. cbn. intros V R. vs. mk. Qed.
Lemma mk_multi_ext s : v_multi_ext LType s = true -> r_multi_ext s = true -> may_make (arb_multi_ext simplified) s.
Proof. destruct s. unfold v_multi_ext, r_multi_ext, arb_multi_ext. cbn. intros V R. vs. mk. Qed.
Lemma mk_basic s : v_basic LType s = true -> r_basic s = true -> may_make arb_basic s.
Proof. destruct s. unfold v_basic, r_basic, arb_basic. cbn. intros V R. vs. mk. Qed.
Hint Resolve mk_single_ext mk_multi_ext mk_basic : mk.
Lemma mk_body d : forall b, v_body_structure LType b = true -> r_body d b = true ->
  may_make (fun s => arb_body_structure_limited simplified s d) b.
Proof.
  induction d as [| d IH]; intros b V R; cbn [arb_body_structure_limited]; cbv zeta.
  - unfold arb_body_structure_leaf. destruct b as [basic [] ext | l s ext]; cbn [v_body_structure r_body] in *; vs; try discriminate; mk.
  - destruct b as [basic [] ext | l s ext]; cbn [v_body_structure r_body] in *; vs.
    1, 2, 3: apply mk_match; [cbn [firstn Nat.sub]; apply mk_here; mk | lia].
    apply mk_match; [cbn [firstn Nat.sub]; apply mk_there, mk_here | lia].
    apply (mk_nonempty_or' _ _ _ l); [assumption | | mk].
    apply (Forall_mk2 _ (v_body_structure LType) (r_body d)); assumption.
Qed.
Lemma mk_body_structure b : v_body LType b = true -> r_body (body_depth simplified) b = true ->
  may_make (arb_body_structure simplified) b.
Proof.
  unfold v_body. intros V R. vs. apply (mk_ext _ (fun s => arb_body_structure_limited simplified s (body_depth simplified))).
  - intros s. unfold arb_body_structure, body_depth. now destruct simplified.
  - now apply mk_body.
Qed.
Hint Resolve mk_body_structure : mk.

(** *** Fetch *)
Lemma mk_macro m : may_make (fun _ => arb_macro) m.
Proof. unfold arb_macro. destruct m; mk. Qed.
Lemma mk_part p : v_part p = true -> may_make (fun _ => arb_part) p.
Proof. unfold v_part, arb_part. intros V. vs. mk. Qed.
Hint Resolve mk_macro mk_part : mk.
Lemma mk_section s : v_section LType s = true -> r_section s = true -> may_make arb_section s.
Proof. unfold arb_section. destruct s; cbn [v_section r_section]; intros V R; vs; mk. Qed.
Hint Resolve mk_section : mk.
Lemma mk_item_name i : v_item_name LType i = true -> r_item_name i = true -> may_make arb_item_name i.
Proof. unfold arb_item_name. destruct i; cbn [v_item_name r_item_name]; unfold v_partial; intros V R; vs; mk. Qed.
Hint Resolve mk_item_name : mk.
Lemma mk_macro_or_items m : v_macro_or_items LType m = true -> r_macro_or_items m = true -> may_make arb_macro_or_items m.
Proof. unfold arb_macro_or_items. destruct m; cbn [v_macro_or_items r_macro_or_items]; intros V R; vs; mk. Qed.
Lemma mk_message_data_item i : v_message_data_item LType i = true -> r_message_data_item simplified i = true ->
  may_make (arb_message_data_item simplified) i.
Proof. unfold arb_message_data_item. destruct i; cbn [v_message_data_item r_message_data_item]; intros V R; vs; mk. Qed.
Hint Resolve mk_macro_or_items mk_message_data_item : mk.

(** *** Extensions *)
Lemma mk_sort_criterion c : may_make (fun _ => arb_sort_criterion) c.
Proof. destruct c as [b k]. unfold arb_sort_criterion, arb_sort_key. destruct k; mk. Qed.
Lemma mk_compression c : may_make (fun _ => arb_compression) c.
Proof. destruct c. unfold arb_compression. mk. Qed.
Lemma mk_quota_get q : v_quota_get q = true -> may_make arb_quota_get q.
Proof. destruct q. unfold v_quota_get, arb_quota_get. cbn. intros V. vs. mk. Qed.
Lemma mk_quota_set q : v_quota_set q = true -> may_make arb_quota_set q.
Proof. destruct q. unfold v_quota_set, arb_quota_set. cbn. intros V. vs. mk. Qed.
Lemma mk_entry_value e : v_entry_value LType e = true -> r_entry_value e = true -> may_make arb_entry_value e.
Proof. destruct e. unfold v_entry_value, r_entry_value, arb_entry_value. cbn. intros V R. vs. mk. Qed.
Hint Resolve mk_sort_criterion mk_compression mk_quota_get mk_quota_set mk_entry_value : mk.
Lemma mk_get_metadata_option o : v_get_metadata_option o = true -> may_make (fun _ => arb_get_metadata_option) o.
Proof.
  unfold arb_get_metadata_option, arb_depth. destruct o as [n | []]; cbn [v_get_metadata_option]; intros V; mk.
Qed.
Lemma mk_metadata_code c : v_metadata_code c = true -> may_make (fun _ => arb_metadata_code) c.
Proof. unfold arb_metadata_code. destruct c; cbn [v_metadata_code]; intros V; mk. Qed.
Lemma mk_metadata_response r : v_metadata_response LType r = true -> r_metadata_response r = true ->
  may_make arb_metadata_response r.
Proof. unfold arb_metadata_response. destruct r; cbn [v_metadata_response r_metadata_response]; intros V R; vs; mk. Qed.
Lemma mk_namespace_ext e : v_namespace_ext LType e = true -> r_namespace_ext e = true -> may_make arb_namespace_ext e.
Proof. destruct e. unfold v_namespace_ext, r_namespace_ext, arb_namespace_ext. cbn. intros V R. vs. mk. Qed.
Hint Resolve mk_get_metadata_option mk_metadata_code mk_metadata_response mk_namespace_ext : mk.
Lemma mk_namespace n : v_namespace LType n = true -> r_namespace n = true -> may_make arb_namespace n.
Proof. destruct n. unfold v_namespace, r_namespace, arb_namespace. cbn. intros V R. vs. mk. Qed.
Lemma mk_select_parameter p : v_select_parameter LType p = true -> may_make (fun _ => arb_select_parameter) p.
Proof. unfold arb_select_parameter. destruct p; cbn [v_select_parameter]; intros V; vs; mk. Qed.
Lemma mk_fetch_modifier m : v_fetch_modifier m = true -> may_make (fun _ => arb_fetch_modifier) m.
Proof. unfold arb_fetch_modifier. destruct m; cbn [v_fetch_modifier]; intros V; mk. Qed.
Lemma mk_store_modifier m : v_store_modifier m = true -> may_make (fun _ => arb_store_modifier) m.
Proof. unfold arb_store_modifier. destruct m; cbn [v_store_modifier]; intros V; mk. Qed.
Lemma mk_id_params p : v_id_params LType p = true -> r_id_params p = true -> may_make arb_id_params p.
Proof.
  unfold arb_id_params, r_id_params. destruct p as [[| a l] |]; intros V R; [| | mk].
  - apply mk_some, mk_vec. constructor.
  - change (forallb (vpair (v_istring LType) (v_nstring LType)) (a :: l) = true) in V. mk.
Qed.
Hint Resolve mk_namespace mk_select_parameter mk_fetch_modifier mk_store_modifier mk_id_params : mk.

(** *** Threads *)
Lemma thread_stop n c : arb_thread_loop n c (GVal c).
Proof.
  destruct n; [reflexivity |]. cbn [arb_thread_loop]. left. exists 2. split; [cbn; lia | reflexivity].
Qed.
Lemma thread_part p : v1 v_nz32 p = true -> arb_vec1 g_nz32 (GVal p).
Proof.
  intros V. assert (M : may_make (fun _ => arb_vec1 g_nz32) p) by (vs; mk). destruct M as [n M]. exact (M n (N.le_refl n)).
Qed.
Lemma thread_arm1 n c p o : v1 v_nz32 p = true -> arb_thread_loop n (TMembers p (Some [c; c])) o -> arb_thread_loop (S n) c o.
Proof.
  intros V H. cbn [arb_thread_loop]. left. exists 0. split; [cbn; lia |]. cbn. left. exists p. split; [now apply thread_part |].
  left. exists [c; c]. split; [reflexivity | exact H].
Qed.
Lemma thread_arm2 n c o : arb_thread_loop n (TNested [c; c]) o -> arb_thread_loop (S n) c o.
Proof.
  intros H. cbn [arb_thread_loop]. left. exists 1. split; [cbn; lia |]. cbn. left. exists [c; c]. split; [reflexivity | exact H].
Qed.
Lemma thread_arms n c o : arb_thread_loop (S n) c o ->
  o = GFail \/ (exists p, arb_vec1 g_nz32 (GVal p) /\ arb_thread_loop n (TMembers p (Some [c; c])) o)
  \/ arb_thread_loop n (TNested [c; c]) o \/ o = GVal c.
Proof.
  cbn [arb_thread_loop]. intros [(i & B & H) | [(B & ->) | (B & _)]]; [| now left | destruct B].
  cbn in B. destruct i as [| [| [| i]]]; cbn in H; [| | | lia].
  - destruct H as [(p & Hp & H) | [(Hp & ->) | (Hp & ->)]]; [| now left |].
    + destruct H as [(l & E & H) | [(E & ->) | (E & ->)]]; try discriminate E. injection E as <-. right. left. eauto.
    + exfalso. unfold arb_vec1, g_vec in Hp. destruct Hp as [(l & Hp & Q) | [(Q & X) | (Hp & _)]]; [| discriminate |].
      * destruct l; discriminate Q.
      * destruct Hp as [(m & Hm & Hp) | [(Q & X) | (Hp & _)]]; [| discriminate | destruct Hp].
        clear Hm. induction m as [| m IH]; [discriminate |]. cbn [g_times] in Hp.
        destruct Hp as [(x & Hx & [(y & Hy & Q) | [(Q & X) | (Hp & _)]]) | [(Q & X) | (Hp & _)]]; try discriminate; [auto | destruct Hp].
  - destruct H as [(l & E & H) | [(E & ->) | (E & ->)]]; try discriminate E. injection E as <-. auto.
  - auto.
Qed.
Lemma thread_more (wrap : thread -> thread) :
  (forall n c o, arb_thread_loop n (wrap c) o -> arb_thread_loop (S n) c o) ->
  forall n c t, arb_thread_loop n c (GVal t) -> arb_thread_loop (S n) c (GVal (wrap t)).
Proof.
  intros W. induction n as [| n IH]; intros c t H.
  - injection H as <-. apply W, thread_stop.
  - apply thread_arms in H as [H | [(p & Hp & H) | [H | H]]]; [discriminate | | |].
    + apply IH in H. cbn [arb_thread_loop]. left. exists 0. split; [cbn; lia |]. cbn. left. exists p. split; [exact Hp |].
      left. exists [c; c]. split; [reflexivity | exact H].
    + apply IH in H. now apply thread_arm2.
    + injection H as <-. apply W, thread_stop.
Qed.
Lemma thread_made d t : r_thread d t -> v_thread_tree t = true ->
  exists p, v1 v_nz32 p = true /\ arb_thread_loop d (TMembers p None) (GVal t).
Proof.
  induction 1 as [d p | d p t R IH | d t R IH]; cbn [v_thread_tree]; intros V.
  - exists p. split; [exact V | apply thread_stop].
  - apply andb_true_iff in V as [V V']. apply andb_true_iff in V as [V _]. cbn [forallb] in V'. apply andb_true_iff in V' as [V' _].
    destruct (IH ltac:(assumption)) as (q & Hq & L). exists q. split; [exact Hq |].
    apply (thread_more (fun t => TMembers p (Some [t; t]))); [| exact L]. intros n c o. now apply thread_arm1.
  - apply andb_true_iff in V as [_ V']. cbn [forallb] in V'. apply andb_true_iff in V' as [V' _].
    destruct (IH ltac:(assumption)) as (q & Hq & L). exists q. split; [exact Hq |].
    apply (thread_more (fun t => TNested [t; t])); [| exact L]. intros n c o. now apply thread_arm2.
Qed.
Lemma mk_thread t : v_thread LType t = true -> r_thread (thread_limit simplified) t -> may_make (fun _ => arb_thread simplified) t.
Proof.
  unfold v_thread. intros V R. vs. destruct (thread_made _ _ R H) as (p & Hp & L). exists 0%N. intros _ _.
  assert (X : arb_thread_leaf (GVal (TMembers p None))).
  { left. exists p. split; [now apply thread_part | reflexivity]. }
  unfold arb_thread, thread_limit in *. destruct simplified.
  - injection L as ->. exact X.
  - left. exists (TMembers p None). split; [exact X | exact L].
Qed.

(** *** Commands *)
Lemma mk_command_body c : v_command_body LType c = true -> r_command_body simplified c = true ->
  may_make (arb_command_body simplified) c.
Proof.
  unfold arb_command_body. destruct c; cbn [v_command_body r_command_body]; intros V R; vs; try solve [mk].
Qed.
Hint Resolve mk_command_body : mk.
Lemma mk_command c : v_command LType c = true -> r_command simplified c = true -> may_make (arb_command simplified) c.
Proof. destruct c. unfold v_command, r_command, arb_command. cbn. intros V R. vs. mk. Qed.

(** *** Responses *)
Lemma mk_code c t : v_code LType other_name c t = true -> r_code c = true -> may_make arb_code c.
Proof.
  unfold arb_code. destruct c; cbn [v_code r_code]; intros V R; vs.
  all: try solve [mk].
  - rewrite orb_comm in H. mk.
  - apply beqs_eq in R as ->. unfold arb_code_other. mk.
Qed.
Lemma mk_plain t : text_ok t = true -> r_plain t = true -> may_make arb_plain_text t.
Proof.
  unfold r_plain. intros V R. apply negb_true_iff in R. unfold arb_plain_text.
  apply (mk_bind _ _ t); [| now apply mk_text]. rewrite R. apply mk_ret.
Qed.
Hint Resolve mk_plain : mk.
Lemma mk_greeting g : v_greeting LType other_name g = true -> r_greeting g = true -> may_make arb_greeting g.
Proof.
  destruct g as [k c t]. unfold v_greeting, v_code_text, r_greeting, arb_greeting, arb_greeting_kind. cbn [gr_code gr_text].
  intros V R. vs. destruct c as [c |]; cbn [vopt] in *.
  - pose proof (mk_code _ _ H2 H). destruct k; mk.
  - destruct k; mk.
Qed.
Lemma mk_tagged_or_not b s : match s with StUntagged b' => b' = b | StTagged t b' => b' = b /\ tag_ok t = true | StBye _ _ => False end ->
  may_make (fun size => arb_tagged_or_not size b) s.
Proof.
  unfold arb_tagged_or_not. destruct s as [b' | t b' | c t].
  - intros ->. apply (mk_bind _ _ None); [apply mk_ret | apply mk_none].
  - intros [-> T]. apply (mk_bind _ _ (Some t)); [apply mk_ret | mk].
  - intros [].
Qed.
Lemma mk_status s : v_status LType other_name s = true -> r_status s = true -> may_make arb_status s.
Proof.
  intros V R.
  assert (X : exists c t, v_code_text LType other_name c t = true /\ r_code_text c t = true /\
    match s with
    | StUntagged b => sb_code b = c /\ sb_text b = t
    | StTagged g b => sb_code b = c /\ sb_text b = t /\ tag_ok g = true
    | StBye c' t' => c' = c /\ t' = t
    end).
  { destruct s as [b | g b | c t]; cbn [v_status r_status] in *; unfold v_status_body in *; vs; eauto 8. }
  destruct X as (c & t & Vc & Rc & S). unfold v_code_text in Vc. vs.
  unfold arb_status. apply (mk_bind _ _ c).
  - apply (mk_bind _ _ t).
    + destruct s as [[k c' t'] | g [k c' t'] | c' t']; cbn [sb_code sb_text] in S.
      * destruct S as [-> ->]. apply mk_match; [cbn [firstn Nat.sub] | lia].
        destruct k; [apply mk_here | apply mk_there, mk_here | apply mk_there, mk_there, mk_here]; now apply mk_tagged_or_not.
      * destruct S as (-> & -> & T). apply mk_match; [cbn [firstn Nat.sub] | lia].
        destruct k; [apply mk_here | apply mk_there, mk_here | apply mk_there, mk_there, mk_here]; now apply mk_tagged_or_not.
      * destruct S as [-> ->]. apply mk_match; [cbn [firstn Nat.sub] | lia]. apply mk_there, mk_there, mk_there, mk_here, mk_ret.
    + destruct c; cbn [r_code_text] in Rc; mk.
  - destruct c as [c |]; [apply mk_some, (mk_code c t); assumption | apply mk_none].
Qed.
Lemma mk_modseq m : match m with Some n => (ext_condstore_qresync && v_nz64 n)%bool | None => true end = true ->
  may_make (fun _ => arb_modseq) m.
Proof. unfold arb_modseq. destruct m as [n |]; intros V; vs; [rewrite H; mk | destruct ext_condstore_qresync; mk]. Qed.
Hint Resolve mk_modseq : mk.
Lemma mk_data d : v_data LType d = true -> r_data simplified d -> may_make (arb_data simplified) d.
Proof.
  unfold arb_data. destruct d; cbn [v_data r_data]; intros V R; vs; try solve [mk].
  assert (M : Forall (may_make (fun _ => arb_thread simplified)) l).
  { rewrite forallb_forall in V. rewrite Forall_forall in *. auto using mk_thread. }
  mk.
Qed.
Lemma mk_continuation c : v_continuation LType other_name c = true ->
  match c with CRBasic c _ => vopt r_code c | CRBase64 _ => true end = true -> may_make arb_continuation c.
Proof.
  unfold arb_continuation. destruct c as [c t | d]; intros V R; [unfold v_continuation in V | mk].
  apply mk_here. unfold arb_continuation_basic. apply (mk_bind _ _ c).
  - apply (mk_bind _ _ t).
    + assert (T : text_ok t = true) by (destruct c; vs; assumption).
      unfold continue_basic_new. rewrite (proj1 text_conv t (proj1 (text_ok_spec t) T)). cbn [with_arg].
      destruct c as [c |]; cbn [andb]; [apply mk_ret |]. vs. apply negb_true_iff in H1. rewrite H1.
      revert H0. destruct (b64_decode t); intros H0; [discriminate | apply mk_ret].
    + destruct c; vs; mk.
  - destruct c as [c |]; cbn [vopt] in R; [vs; apply mk_some, (mk_code c t); assumption | apply mk_none].
Qed.
Hint Resolve mk_data mk_continuation mk_status : mk.
Lemma mk_response r : v_response LType other_name r = true -> r_response simplified r -> may_make (arb_response simplified) r.
Proof.
  unfold arb_response. destruct r as [[c t | d] | d | s]; cbn [v_response r_response]; intros V R; mk.
Qed.
Lemma mk_authenticate_data a : may_make arb_authenticate_data a.
Proof. unfold arb_authenticate_data. destruct a; mk. Qed.
End Cover.

(** Everything a generator of Arb.v can make satisfies the invariants of its type. *)

From Verif Require Import Bytes BytesFacts Dec Features Nom Types Utf8 Conv SeqSet Base64 Date Ctors
  ValueSpec ValueFacts ValueProps Valid ValidFacts OkTac OkCore OkBody OkCmd OkResp OtherCode Arb.
Open Scope nat_scope.

(** No outcome of [g] is a panic; its values satisfy [P]. *)
Definition sat {A} (g : gen A) (P : A -> Prop) : Prop := forall o, g o ->
  match o with GVal a => P a | GFail => True | GPanic => False end.

Lemma forallb_Forall {A} (v : A -> bool) l : Forall (fun a => v a = true) l <-> forallb v l = true.
Proof.
  rewrite forallb_forall, Forall_forall. reflexivity.
Qed.
Lemma sat_weaken {A} (g : gen A) (P Q : A -> Prop) : sat g P -> (forall a, P a -> Q a) -> sat g Q.
Proof. intros H W o Ho. specialize (H o Ho). destruct o; auto. Qed.
Lemma sat_ret {A} (a : A) (P : A -> Prop) : P a -> sat (g_ret a) P.
Proof. intros H o ->. exact H. Qed.
Lemma sat_fail {A} (P : A -> Prop) : sat g_fail P.
Proof. intros o ->. exact I. Qed.
Lemma sat_any {A} (P Q : A -> Prop) : (forall a, P a -> Q a) -> sat (g_any P) Q.
Proof. intros H [a | |]; cbn; auto. Qed.
Lemma sat_bind {A B} (g : gen A) (f : A -> gen B) P Q :
  sat g P -> (forall a, P a -> sat (f a) Q) -> sat (g_bind g f) Q.
Proof.
  intros G K o [(a & Ga & Fo) | [[_ ->] | [Gp _]]]; [| exact I | destruct (G _ Gp)].
  exact (K a (G _ Ga) o Fo).
Qed.
Lemma sat_map {A B} (f : A -> B) g (Q : B -> Prop) : sat g (fun a => Q (f a)) -> sat (g_map f g) Q.
Proof. intros H. eapply sat_bind; [exact H |]. intros a Ha. now apply sat_ret. Qed.
Lemma sat_option {A} (g : gen A) (P : option A -> Prop) :
  P None -> sat g (fun a => P (Some a)) -> sat (g_option g) P.
Proof. intros Z H o [-> | [-> | K]]; [exact I | exact Z | exact (sat_map _ _ _ H o K)]. Qed.
Lemma sat_pair {A B} (g : gen A) (h : gen B) P Q (R : A * B -> Prop) :
  sat g P -> sat h Q -> (forall a b, P a -> Q b -> R (a, b)) -> sat (g_pair g h) R.
Proof.
  intros G H K. eapply sat_bind; [exact G |]. intros a Ha. eapply sat_bind; [exact H |].
  intros b Hb. apply sat_ret. auto.
Qed.
Lemma sat_times {A} (g : gen A) P n : sat g P -> sat (g_times n g) (Forall P).
Proof.
  intros G. induction n as [| n IH]; cbn [g_times]; [apply sat_ret; constructor |].
  eapply sat_bind; [exact G |]. intros a Ha. eapply sat_bind; [exact IH |]. intros l Hl.
  apply sat_ret. now constructor.
Qed.
Lemma sat_vec {A} (g : gen A) P : sat g P -> sat (g_vec g) (Forall P).
Proof.
  intros G. eapply sat_bind; [apply sat_any; intros a _; exact I |]. intros n _. now apply sat_times.
Qed.
Lemma sat_enum {A} (l : list (gen A)) P : Forall (fun g => sat g P) l -> sat (g_enum l) P.
Proof.
  intros H o [-> | (g & I1 & Go)]; [exact I |]. rewrite Forall_forall in H. exact (H g I1 o Go).
Qed.
Lemma Forall_cfg {A} b (l : list (gen A)) (P : gen A -> Prop) : (b = true -> Forall P l) -> Forall P (g_cfg b l).
Proof. destruct b; cbn; intros H; [auto | constructor]. Qed.
Lemma sat_match {A} lo hi first (arms : list (gen A)) P :
  Nat.leb first lo && Nat.ltb (hi - first) (length arms) = true ->
  Forall (fun g => sat g P) arms -> sat (g_match lo hi first arms) P.
Proof.
  intros B H. apply andb_true_iff in B as [B1 B2]. apply Nat.leb_le in B1. apply Nat.ltb_lt in B2.
  eapply sat_bind; [apply sat_any; intros n Hn; exact Hn |]. intros n Hn. cbn beta in Hn |- *.
  destruct (Nat.ltb_spec n first); [lia |].
  rewrite Forall_forall in H. apply H, nth_In. lia.
Qed.
Lemma sat_try {A} (c : conv A) (P : A -> Prop) : c <> CPanic -> (forall a, c = COk a -> P a) -> sat (g_try c) P.
Proof. intros N H. destruct c; cbn; [apply sat_ret; auto | apply sat_fail | congruence]. Qed.
Lemma sat_vec1 {A} (g : gen A) (v : A -> bool) : sat g (fun a => v a = true) ->
  sat (arb_vec1 g) (fun l => v1 v l = true).
Proof.
  intros G. eapply sat_bind; [apply sat_vec; exact G |]. intros l Hl.
  apply sat_try; unfold vec_n_from, validate_vec_n; destruct l; cbn; try discriminate.
  intros l' [= <-]. unfold v1. cbn [nonempty andb]. now apply forallb_Forall.
Qed.
Lemma sat_vec1P {A} (g : gen A) P : sat g P -> sat (arb_vec1 g) (fun l => nonempty l = true /\ Forall P l).
Proof.
  intros G. eapply sat_bind; [apply sat_vec; exact G |]. intros l Hl.
  apply sat_try; unfold vec_n_from, validate_vec_n; destruct l; cbn; try discriminate.
  intros l' [= <-]. now split.
Qed.
Lemma sat_vecb {A} (g : gen A) (v : A -> bool) : sat g (fun a => v a = true) ->
  sat (g_vec g) (fun l => forallb v l = true).
Proof. intros G. eapply sat_weaken; [apply sat_vec; exact G |]. intros l. apply forallb_Forall. Qed.
Lemma sat_opt {A} (g : gen A) (v : A -> bool) : sat g (fun a => v a = true) ->
  sat (g_option g) (fun o => vopt v o = true).
Proof. intros G. now apply sat_option. Qed.
Lemma sat_vpair {A B} (g : gen A) (h : gen B) v w :
  sat g (fun a => v a = true) -> sat h (fun b => w b = true) ->
  sat (g_pair g h) (fun p => vpair v w p = true).
Proof. intros G H. eapply sat_pair; [exact G | exact H |]. cbn. unfold vpair. cbn. now intros a b -> ->. Qed.
Lemma sat_field {A} b (g : gen A) (v : A -> bool) : (b = true -> sat g (fun a => v a = true)) ->
  sat (g_field b g) (fun l => v_gated b v l = true).
Proof.
  intros G. unfold g_field, v_gated. destruct b; cbn; [now apply sat_vecb; apply G | now apply sat_ret].
Qed.
Lemma sat_true {A} (P : A -> Prop) : sat (g_any P) (fun _ => True).
Proof. now apply sat_any. Qed.

(** ** Conversions *)
Lemma check_cases f s : (check_bytes f s = COk tt /\ forallb f s = true) \/ exists e, check_bytes f s = CErr e.
Proof.
  destruct (ok_or_wrong (fun b => f b = true) f (fun b => iff_refl _) s) as [H | (b & i & H)].
  - left. split; [now apply (check_ok (fun b => f b = true) f (fun b => iff_refl _)) |].
    now apply forallb_Forall.
  - right. exists (VInvalidByteAt b i).
    now apply (check_wrong (fun b => f b = true) f (fun b => iff_refl _)).
Qed.
Lemma check1_cases f s :
  (cbind (check_nonempty s) (fun _ => check_bytes f s) = COk tt /\ nonempty s && forallb f s = true) \/
  exists e, cbind (check_nonempty s) (fun _ => check_bytes f s) = CErr e.
Proof.
  destruct s as [| b s]; [right; eexists; reflexivity |]. cbn [check_nonempty cbind nonempty andb].
  apply check_cases.
Qed.
Lemma sat_check (f : bool) s (c : conv unit) (P : bytes -> Prop) :
  ((c = COk tt /\ f = true) \/ exists e, c = CErr e) -> (f = true -> P s) ->
  sat (g_try (cmap (fun _ => s) c)) P.
Proof.
  intros [[-> H] | [e ->]] K; cbn; [apply sat_ret; auto | apply sat_fail].
Qed.

Lemma sat_u32 : sat g_u32 (fun n => v_u32 n = true).
Proof. apply sat_any. intros n H. now apply N.leb_le. Qed.
Lemma sat_nz32 : sat g_nz32 (fun n => v_nz32 n = true).
Proof.
  apply sat_any. intros n [H1 H2]. unfold v_nz32. apply andb_true_iff. split; [| now apply N.leb_le].
  apply negb_true_iff, N.eqb_neq. lia.
Qed.
Lemma sat_u64 : sat g_u64 (fun n => v_u64 n = true).
Proof. apply sat_any. intros n H. now apply N.leb_le. Qed.
Lemma sat_nz64 : sat g_nz64 (fun n => v_nz64 n = true).
Proof.
  apply sat_any. intros n [H1 H2]. unfold v_nz64. apply andb_true_iff. split; [| now apply N.leb_le].
  apply negb_true_iff, N.eqb_neq. lia.
Qed.
Lemma sat_bool : sat g_bool (fun _ => True).
Proof. apply sat_true. Qed.
Lemma sat_len : sat g_len (fun _ => True).
Proof. apply sat_true. Qed.
Lemma sat_nonempty_or {A} (l : list A) (leaf : gen A) (v : A -> bool) (P : list A -> Prop) :
  Forall (fun a => v a = true) l -> sat leaf (fun a => v a = true) ->
  (forall l', nonempty l' = true -> forallb v l' = true -> P l') -> sat (g_nonempty_or l leaf) P.
Proof.
  intros Hl Hf K. destruct l as [| a l]; cbn.
  - apply sat_map. eapply sat_weaken; [exact Hf |]. cbn beta. intros b Hb. apply K; [reflexivity |].
    cbn. now rewrite Hb.
  - apply sat_ret. apply K; [reflexivity |]. now apply forallb_Forall.
Qed.

Create HintDb arb.
#[export] Hint Resolve sat_u32 sat_nz32 sat_u64 sat_nz64 sat_bool sat_len sat_vec1 sat_vecb sat_opt sat_vpair
  sat_field : arb.

Ltac gknown := solve [cbv beta; eauto 6 with arb].
Ltac gconj := repeat match goal with
  | |- (_ && _)%bool = true => apply andb_true_iff; split
  | H : (_ && _)%bool = true |- _ => apply andb_true_iff in H as [? ?]
  end.
(** [fin]: what is left to do for the value itself *)
Ltac gsf fin := cbv beta; match goal with
  | |- sat (g_ret _) _ => apply sat_ret; fin
  | |- sat g_fail _ => apply sat_fail
  | |- sat (g_map _ _) _ => apply sat_map; gsf fin
  | |- sat (g_bind _ _) _ => eapply sat_bind; [gknown | intros; cbv beta in *; gsf fin]
  | |- sat (g_enum _) _ => apply sat_enum; gsl fin
  | |- sat (g_match _ _ _ _) _ => apply sat_match; [reflexivity | gsl fin]
  | |- sat _ _ => eapply sat_weaken; [gknown | intros; cbv beta in *; fin]
  end
with gsl fin := match goal with
  | |- Forall _ (_ ++ _) => apply Forall_app; split; gsl fin
  | |- Forall _ (g_cfg _ _) => apply Forall_cfg; intros; gsl fin
  | |- Forall _ (_ :: _) => constructor; [try solve [gsf fin] | gsl fin]
  | |- Forall _ [] => constructor
  end.

Section ArbFacts.
Context {F : features}.
Variable simplified : bool.
Variable size : N.
Variable lv : level.
Hypothesis Hlv : lv = LType \/ lv = LDecoded.
Hypothesis Hsize : lv = LType \/ (size <= u32_max)%N.

Lemma rt_intro b : (lv = LDecoded -> b = true) -> only_rt lv b = true.
Proof. destruct Hlv as [-> | ->]; cbn; auto. Qed.
Lemma exact_any b : only_exact lv b = true.
Proof. destruct Hlv as [-> | ->]; reflexivity. Qed.
Lemma size_fits (s : bytes) : (lenN s <= size)%N -> only_rt lv (N.leb (lenN s) u32_max) = true.
Proof. intros H. apply rt_intro. intros E. destruct Hsize; [congruence |]. apply N.leb_le. lia. Qed.
Lemma down {A} (v : level -> A -> bool) a : (v LDecoded a = true -> v LType a = true) ->
  v LDecoded a = true -> v lv a = true.
Proof. intros M H. destruct Hlv as [-> | ->]; auto. Qed.

Lemma sat_str : sat (g_str size) (fun s => utf8_ok s = true /\ (lenN s <= size)%N).
Proof. apply sat_any. auto. Qed.
Lemma sat_bytes : sat (g_bytes size) (fun s => (lenN s <= size)%N).
Proof. apply sat_any. auto. Qed.
Hint Resolve sat_str sat_bytes : arb.

Ltac by_check1 := eapply sat_bind; [exact sat_str |]; intros s Hs; eapply sat_check;
  [apply check1_cases |]; intros C; destruct s; [discriminate C | exact C].
Lemma sat_atom : sat (arb_atom size) (fun s => atom_ok s = true).
Proof. by_check1. Qed.
Lemma sat_atom_ext : sat (arb_atom_ext size) (fun s => atom_ext_ok s = true).
Proof. by_check1. Qed.
Lemma sat_quoted : sat (arb_quoted size) (fun s => quoted_ok s = true).
Proof.
  eapply sat_bind; [exact sat_str |]. intros s Hs. eapply sat_check; [apply check_cases |]. auto.
Qed.
Lemma sat_tag : sat (arb_tag size) (fun s => tag_ok s = true).
Proof. by_check1. Qed.
Lemma sat_text : sat (arb_text size) (fun s => text_ok s = true).
Proof. by_check1. Qed.
Lemma sat_list_char_string : sat (arb_list_char_string size) (fun s => list_char_string_ok s = true).
Proof. by_check1. Qed.
Hint Resolve sat_atom sat_atom_ext sat_quoted sat_tag sat_text sat_list_char_string : arb.
Lemma validate_atom_cases s : (validate_atom s = COk tt /\ atom_ok s = true) \/ exists e, validate_atom s = CErr e.
Proof.
  destruct (check1_cases is_atom_char s) as [[E C] | [e E]]; [left | right; now exists e].
  split; [exact E |]. destruct s; [discriminate C | exact C].
Qed.

Lemma sat_quoted_char : sat arb_quoted_char (fun b => quoted_char_ok b = true).
Proof.
  eapply sat_bind; [apply sat_any; intros c Hc; exact I |]. intros c _.
  unfold quoted_char_from, validate_quoted_char. destruct (_ && _)%bool eqn:E; cbn; [| apply sat_fail].
  apply sat_ret. apply andb_true_iff in E as [E1 E2]. apply N.leb_le in E1.
  assert (B : bN (byte_trunc c) = c).
  { unfold byte_trunc. rewrite N.mod_small by lia. destruct (Byte.of_N c) as [b |] eqn:O.
    - now apply Byte.to_of_N.
    - apply Byte.of_N_None_iff in O. lia. }
  unfold quoted_char_ok. rewrite B. apply andb_true_iff. split; [now apply N.leb_le |].
  rewrite <- !orb_assoc in *. apply orb_true_iff in E2 as [E2 | E2]; [now rewrite E2 |].
  apply orb_true_iff. right. apply orb_true_iff in E2 as [E2 | E2]; apply N.eqb_eq in E2; subst c;
    apply orb_true_iff; [left | right]; unfold byte_trunc in *; cbn; reflexivity.
Qed.
Lemma sat_flag : sat (arb_flag size) (fun f => v_flag f = true).
Proof.
  eapply sat_bind; [exact sat_str |]. intros s _. unfold flag_from_str.
  assert (K : forall t, sat (g_try (cmap (fun _ : unit => FKeyword t) (validate_atom t))) (fun f => v_flag f = true)).
  { intros t. destruct (validate_atom_cases t) as [[-> H] | [e ->]]; cbn; [now apply sat_ret | apply sat_fail]. }
  destruct s as [| c s']; [apply K |]. destruct (beq c bBS); [| apply K].
  destruct (validate_atom_cases s') as [[-> H] | [e ->]]; cbn; [apply sat_ret | apply sat_fail].
  now apply v_flag_system.
Qed.
Lemma sat_attribute_flag : sat (arb_attribute_flag size) (fun f => v_attribute_flag f = true).
Proof.
  eapply sat_bind; [exact sat_str |]. intros s _. unfold attribute_flag_from_str.
  assert (K : forall t, sat (g_try (cmap (fun _ : unit => AFKeyword t) (validate_atom t))) (fun f => v_attribute_flag f = true)).
  { intros t. destruct (validate_atom_cases t) as [[-> H] | [e ->]]; cbn; [now apply sat_ret | apply sat_fail]. }
  destruct s as [| c [| d s']]; [apply K .. |]. destruct (_ && _)%bool; [| apply K].
  destruct (validate_atom_cases s') as [[-> H] | [e ->]]; cbn; [apply sat_ret | apply sat_fail].
  now apply v_attribute_flag_system.
Qed.
Lemma sat_capability : sat (arb_capability size) (fun c => v_capability lv c = true).
Proof.
  eapply sat_bind; [exact sat_atom |]. intros a Ha. apply sat_ret.
  apply (down (fun l => v_capability l)); [| now apply capability_from_ok].
  apply m_capability; cbn; auto.
Qed.
Lemma sat_flag_name : sat (arb_flag_name size) (fun c => v_flag_name c = true).
Proof. eapply sat_bind; [exact sat_atom |]. intros a Ha. apply sat_ret. now apply v_flag_name_from. Qed.
Lemma sat_threading : sat (arb_threading_algorithm size) (fun c => v_threading_algorithm c = true).
Proof. eapply sat_bind; [exact sat_atom |]. intros a Ha. apply sat_ret. now apply threading_algorithm_from_ok. Qed.
Lemma from_atom {A} (f : bytes -> A) s : utf8_ok s = true -> forall P : A -> Prop,
  (atom_ok s = true -> P (f s)) -> sat (g_try (cmap f (atom_from_bytes s))) P.
Proof.
  intros U P H. unfold atom_from_bytes, utf8_unwrap. rewrite U.
  destruct (validate_atom_cases s) as [[-> V] | [e ->]]; cbn; [apply sat_ret; auto | apply sat_fail].
Qed.
Lemma sat_resource : sat (arb_resource size) (fun c => v_resource c = true).
Proof.
  eapply sat_bind; [exact sat_str |]. intros s [U _]. apply from_atom; [exact U |]. apply resource_from_ok.
Qed.
Lemma sat_auth_mechanism : sat (arb_auth_mechanism size) (fun c => v_auth_mechanism lv c = true).
Proof.
  eapply sat_bind; [exact sat_str |]. intros s [U _]. apply from_atom; [exact U |]. intros V.
  apply (down v_auth_mechanism); [| now apply auth_mechanism_from_ok].
  apply m_auth; cbn; auto.
Qed.
Lemma sat_capability_enable : sat (arb_capability_enable size) (fun c => v_capability_enable c = true).
Proof.
  eapply sat_bind; [exact sat_str |]. intros s [U _]. unfold capability_enable_from_str.
  destruct (validate_atom_cases s) as [[-> V] | [e ->]]; cbn; [apply sat_ret | apply sat_fail].
  now apply capability_enable_from_ok.
Qed.
Hint Resolve sat_quoted_char sat_flag sat_attribute_flag sat_capability sat_flag_name sat_threading
  sat_resource sat_auth_mechanism sat_capability_enable : arb.

Lemma sat_literal_mode : sat arb_literal_mode (fun _ => True).
Proof. unfold arb_literal_mode. gsf ltac:(exact I). Qed.
Hint Resolve sat_literal_mode : arb.
Lemma sat_literal : sat (arb_literal size) (fun l => v_literal lv l = true).
Proof.
  eapply sat_bind; [exact sat_bytes |]. intros s Hs. cbv beta in *. unfold literal_from_bytes.
  destruct (check_cases is_char8 s) as [[E C] | [e E]]; unfold validate_literal; rewrite E; cbn [cbind].
  - eapply sat_bind; [exact sat_literal_mode |]. intros m _. apply sat_ret. unfold v_literal. cbn [lit_data].
    apply andb_true_iff. split; [exact C | now apply size_fits].
  - apply sat_fail.
Qed.
Hint Resolve sat_literal : arb.
Lemma sat_istring : sat (arb_istring size) (fun s => v_istring lv s = true).
Proof.
  unfold arb_istring. destruct ext_utf8 eqn:X.
  - apply sat_match; [reflexivity |]. constructor; [| constructor; [| constructor; [| constructor]]].
    + gsf ltac:(cbn [v_istring]; assumption).
    + eapply sat_bind; [exact sat_str |]. intros s [U _].
      destruct (check_cases is_text_char s) as [[E C] | [e E]]; unfold validate_quoted; rewrite E;
        apply sat_ret; cbn [v_istring]; [exact C |].
      rewrite X, U. cbn [andb]. apply rt_intro. intros _. apply negb_true_iff.
      destruct (quoted_ok s) eqn:Q; [| reflexivity].
      unfold quoted_ok in Q. apply forallb_Forall in Q.
      rewrite (check_ok (fun b => is_text_char b = true) is_text_char (fun b => iff_refl _) s Q) in E. discriminate.
    + gsf ltac:(cbn [v_istring]; assumption).
  - gsf ltac:(cbn [v_istring]; assumption).
Qed.
Hint Resolve sat_istring : arb.
Lemma sat_nstring : sat (arb_nstring size) (fun s => v_nstring lv s = true).
Proof. unfold arb_nstring, v_nstring. gknown. Qed.
Hint Resolve sat_nstring : arb.
Lemma sat_astring : sat (arb_astring size) (fun s => v_astring lv s = true).
Proof. unfold arb_astring. gsf ltac:(cbn [v_astring]; assumption). Qed.
Lemma sat_charset : sat (arb_charset size) (fun s => v_charset s = true).
Proof. unfold arb_charset. gsf ltac:(cbn [v_charset]; assumption). Qed.
Lemma sat_literal8 : sat (arb_literal8 size) (fun s => v_literal8 lv s = true).
Proof. unfold arb_literal8. gsf ltac:(unfold v_literal8; cbn [lit8_data]; now apply size_fits). Qed.
Hint Resolve sat_astring sat_charset sat_literal8 : arb.
Lemma sat_lit_or_lit8 : sat (arb_lit_or_lit8 size) (fun s => v_lit_or_lit8 lv s = true).
Proof. unfold arb_lit_or_lit8. gsf ltac:(cbn [v_lit_or_lit8]; assumption). Qed.
Lemma sat_nstring8 : sat (arb_nstring8 size) (fun s => v_nstring8 lv s = true).
Proof. unfold arb_nstring8. gsf ltac:(cbn [v_nstring8]; assumption). Qed.
Hint Resolve sat_lit_or_lit8 sat_nstring8 : arb.
Lemma sat_mailbox : sat (arb_mailbox size) (fun s => v_mailbox lv s = true).
Proof.
  eapply sat_bind; [exact sat_str |]. intros s [U L]. destruct (mailbox_conv s) as (H1 & H2 & H3).
  destruct (astring_cases s) as [[C (a & E & B)] | (b & i & W & E)].
  2:{ rewrite (H3 _ _ W). apply sat_fail. }
  destruct (eqi s (bs "inbox")) eqn:N.
  - rewrite H1; [now apply sat_ret |]. apply same_letters_spec. unfold eqi in N. now apply beqs_eq in N.
  - assert (N' : ~ same_letters s (bs "inbox")).
    { intros K. apply same_letters_spec in K. unfold eqi in N. rewrite K, beqs_refl in N. discriminate. }
    rewrite (H2 N' a E). apply sat_ret. cbn [v_mailbox].
    assert (AB : astring_bytes a = s) by (rewrite <- B; now destruct a as [| [| | []]]).
    apply andb_true_iff. split; [| unfold mailbox_other_ok; now rewrite AB, N].
    destruct (astring_conv s) as (K1 & K2 & K3 & _).
    destruct (converts_some_cases _ _ _ atom_ext_conv s) as [[A _] | [A _]].
    { rewrite (K1 A) in E. injection E as <-. cbn [v_astring]. now apply atom_ext_ok_spec. }
    destruct (converts_many_cases _ _ _ quoted_conv s) as [[Q _] | [Q _]].
    { rewrite (K2 A Q) in E. injection E as <-. cbn [v_astring v_istring]. now apply quoted_ok_spec. }
    rewrite (K3 Q C) in E. injection E as <-. cbn [v_astring v_istring]. unfold v_literal. cbn [lit_data].
    apply andb_true_iff. split; [now apply literal_ok_spec | now apply size_fits].
Qed.
Hint Resolve sat_mailbox : arb.

(** ** Sequences, dates, flags, status *)
Lemma sat_seq_or_uid : sat arb_seq_or_uid (fun s => v_seq_or_uid s = true).
Proof. unfold arb_seq_or_uid. gsf ltac:(cbn [v_seq_or_uid]; auto). Qed.
Hint Resolve sat_seq_or_uid : arb.
Lemma sat_sequence : sat arb_sequence (fun s => v_sequence s = true).
Proof. unfold arb_sequence. gsf ltac:(cbn [v_sequence]; gconj; auto). Qed.
Hint Resolve sat_sequence : arb.
Lemma sat_sequence_set : sat arb_sequence_set (fun s => v_sequence_set lv s = true).
Proof.
  unfold arb_sequence_set. gsf ltac:(unfold v_sequence_set; rewrite exact_any; gconj; auto).
Qed.
Lemma sat_uid_set : sat arb_uid_set (fun s => v_uid_set s = true).
Proof.
  unfold arb_uid_set, v_uid_set. apply sat_vec1. gsf ltac:(cbn [v_uid_element]; gconj; auto).
Qed.
Hint Resolve sat_sequence_set sat_uid_set : arb.

Lemma sat_naive_date : sat arb_naive_date (fun d => v_date d = true).
Proof.
  eapply sat_bind; [apply sat_true |]. intros y _.
  eapply sat_bind; [apply sat_any; intros p Hp; exact Hp |]. intros [m d] Hp. cbn [fst snd] in *.
  unfold validate_naive_date. destruct (_ && _)%bool eqn:Y; cbn [negb]; [| apply sat_fail].
  apply sat_ret. apply andb_true_iff in Y as [Y1 Y2]. apply Z.leb_le in Y1, Y2.
  unfold v_date. cbn [d_year d_month d_day]. rewrite Hp by exact Y1. cbn [andb]. apply N.leb_le. lia.
Qed.
Lemma sat_date_time : sat arb_date_time (fun d => v_date_time d = true).
Proof.
  unfold arb_date_time.
  eapply sat_bind; [apply sat_any; intros y H; exact H |]. intros y Hy. cbv beta in Hy.
  eapply sat_bind; [apply sat_true |]. intros m _.
  eapply sat_bind; [apply sat_true |]. intros d _.
  destruct (ymd_ok y m d) eqn:D; cbn [negb]; [| apply sat_fail].
  eapply sat_bind; [apply sat_any; intros t H; exact H |]. intros [[[h mi] s] n] Ht. cbv beta iota in Ht.
  eapply sat_bind; [apply sat_any; intros t H; exact H |]. intros hours Hh. cbv beta in Hh.
  eapply sat_bind; [apply sat_any; intros t H; exact H |]. intros minutes Hm. cbv beta in Hm.
  cbv zeta. assert (R : (-86400 < hours + minutes * 60 < 86400)%Z) by lia.
  assert (R' : (Z.ltb (-86400) (hours + minutes * 60) && Z.ltb (hours + minutes * 60) 86400)%bool = true).
  { apply andb_true_iff. split; apply Z.ltb_lt; lia. }
  rewrite R'. cbn [negb]. destruct (validate_date_time _ _ _) eqn:V; [apply sat_fail |]. apply sat_ret.
  unfold validate_date_time in V. apply andb_true_iff in R' as [R1 R2].
  destruct (negb (Z.leb _ _ && _)) eqn:Y in V; [discriminate |].
  destruct (negb (N.eqb _ _)) eqn:Y' in V; [discriminate |].
  destruct (negb (Z.eqb _ _)) eqn:Y'' in V; [discriminate |]. apply negb_false_iff in Y''.
  unfold v_date_time, v_date. cbn [dt_date dt_hour dt_min dt_sec dt_offset d_year d_month d_day].
  rewrite D, R1, R2, Y''. cbn [andb]. rewrite !andb_true_r.
  repeat (apply andb_true_iff; split); try apply N.ltb_lt; try apply N.leb_le; lia.
Qed.
Hint Resolve sat_naive_date sat_date_time : arb.

Definition not_recent (f : flag_fetch) : bool :=
  match f with FFFlag (FExtension a) => negb (eqi a (bs "recent")) | _ => true end.
Lemma sat_flag_fetch : sat (arb_flag_fetch size) (fun f => lv = LType \/ not_recent f = true -> v_flag_fetch lv f = true).
Proof.
  unfold arb_flag_fetch. apply sat_enum. constructor; [| constructor; [| constructor]].
  - apply sat_map. eapply sat_weaken; [exact sat_flag |]. cbv beta. intros f V K. cbn [v_flag_fetch].
    rewrite V. cbn [andb]. apply rt_intro. intros E. destruct K as [K | K]; [congruence |]. exact K.
  - now apply sat_ret.
Qed.
Lemma sat_flag_perm : sat (arb_flag_perm size) (fun f => v_flag_perm f = true).
Proof. unfold arb_flag_perm. gsf ltac:(cbn [v_flag_perm]; auto). Qed.
Lemma sat_store_type : sat arb_store_type (fun _ => True).
Proof. unfold arb_store_type. gsf ltac:(exact I). Qed.
Lemma sat_store_response : sat arb_store_response (fun _ => True).
Proof. unfold arb_store_response. gsf ltac:(exact I). Qed.
Lemma sat_status_name : sat arb_status_name (fun f => v_status_name f = true).
Proof. unfold arb_status_name. gsf ltac:(cbn [v_status_name]; auto). Qed.
Lemma sat_status_item : sat arb_status_item (fun f => v_status_item f = true).
Proof. unfold arb_status_item. gsf ltac:(cbn [v_status_item]; gconj; auto). Qed.
Lemma sat_list_mailbox : sat (arb_list_mailbox size) (fun f => v_list_mailbox lv f = true).
Proof. unfold arb_list_mailbox. gsf ltac:(cbn [v_list_mailbox]; auto). Qed.
Hint Resolve sat_flag_perm sat_store_type sat_store_response sat_status_name sat_status_item sat_list_mailbox : arb.

(** ** Search keys *)
Definition stree (d : nat) (k : search_key) : bool := v_search_tree lv k && Nat.leb (search_depth k) (S d).
Lemma stree_le d d' k : d <= d' -> stree d k = true -> stree d' k = true.
Proof.
  unfold stree. intros L H. gconj; [assumption |]. apply Nat.leb_le. apply Nat.leb_le in H0. lia.
Qed.
Lemma list_max_le' {A} (f : A -> nat) l n : forallb (fun a => Nat.leb (f a) n) l = true -> list_max (map f l) <= n.
Proof.
  induction l as [| a l IH]; cbn; [lia |]. intros H. apply andb_true_iff in H as [H1 H2].
  apply Nat.leb_le in H1. specialize (IH H2). unfold list_max in IH. lia.
Qed.
Lemma forallb_and {A} (f g : A -> bool) l : forallb (fun a => f a && g a) l = true ->
  forallb f l = true /\ forallb g l = true.
Proof.
  rewrite !forallb_forall. intros H. split; intros x Hx; specialize (H x Hx); now apply andb_true_iff in H.
Qed.
Ltac leaf := unfold stree; cbn [v_search_tree search_depth]; rewrite ?andb_true_r; gconj; auto.
Lemma sat_search_leaf d : sat (arb_search_key_leaf size) (fun k => stree d k = true).
Proof. unfold arb_search_key_leaf. apply sat_match; [reflexivity |]. gsl ltac:(leaf). Qed.
Lemma sat_entry_type_req : sat arb_entry_type_req (fun _ => (fun _ => true) tt = true).
Proof. unfold arb_entry_type_req. gsf ltac:(reflexivity). Qed.
Lemma sat_search_limited d : sat (arb_search_key_limited size d) (fun k => stree d k = true).
Proof.
  induction d as [| d IH]; [apply sat_search_leaf |].
  cbn [arb_search_key_limited]. cbv zeta.
  assert (N : forall k, stree d k = true -> v_search_tree lv k = true /\ search_depth k <= S d).
  { intros k H. unfold stree in H. gconj. split; [assumption | now apply Nat.leb_le]. }
  apply sat_match; [now destruct ext_condstore_qresync |].
  gsl ltac:(leaf).
  - eapply sat_bind; [exact sat_len |]. intros n _. eapply sat_bind; [apply sat_times, IH |]. intros l Hl.
    apply sat_map. eapply (sat_nonempty_or _ _ (stree d)); [exact Hl | apply sat_search_leaf |].
    intros l' E Hl'. apply forallb_and in Hl' as [H1 H2]. unfold stree. cbn [v_search_tree search_depth].
    rewrite E, H1. cbn [andb]. apply Nat.leb_le. apply list_max_le' in H2. lia.
  - apply sat_map. eapply sat_weaken; [exact IH |]. intros k Hk. destruct (N k Hk). unfold stree.
    cbn [v_search_tree search_depth]. rewrite H. cbn [andb]. apply Nat.leb_le. lia.
  - eapply sat_bind; [exact IH |]. intros a Ha. eapply sat_bind; [exact IH |]. intros b Hb.
    destruct (N a Ha), (N b Hb). apply sat_ret. unfold stree.
    cbn [v_search_tree search_depth]. rewrite H, H1. cbn [andb]. apply Nat.leb_le. lia.
  - eapply sat_bind; [apply sat_opt, (sat_vpair _ _ v_attribute_flag (fun _ => true));
      [exact sat_attribute_flag | exact sat_entry_type_req] |].
    intros e He. eapply sat_bind; [exact sat_u64 |]. intros n Hn. apply sat_ret. unfold stree.
    cbn [v_search_tree search_depth]. cbv beta in *. now rewrite H, He, Hn.
Qed.
Lemma sat_search_key : sat (arb_search_key simplified size) (fun k => v_search_key lv k = true).
Proof.
  assert (W : forall k, stree 7 k = true -> v_search_key lv k = true).
  { intros k H. unfold stree in H. gconj. unfold v_search_key. rewrite H. cbn [andb]. apply rt_intro.
    intros _. apply Nat.leb_le. apply Nat.leb_le in H0. lia. }
  unfold arb_search_key. destruct simplified; eapply sat_weaken;
    [apply sat_search_leaf | exact W | apply sat_search_limited | exact W].
Qed.
Hint Resolve sat_search_key : arb.

(** ** Bodies *)
Lemma sat_address : sat (arb_address size) (fun a => v_address lv a = true).
Proof. unfold arb_address. gsf ltac:(unfold v_address; cbn; gconj; auto). Qed.
Hint Resolve sat_address : arb.
Lemma sat_envelope : sat (arb_envelope size) (fun a => v_envelope lv a = true).
Proof.
  unfold arb_envelope. gsf ltac:(unfold v_envelope, v_addresses;
    cbn [env_date env_subject env_from env_sender env_reply_to env_to env_cc env_bcc env_in_reply_to env_message_id]; gconj; auto).
Qed.
Hint Resolve sat_envelope : arb.
Definition vbe (b : body_extension) : bool := v_body_extension lv b && only_rt lv (Nat.leb (be_depth b) 8).
Definition btree (d : nat) (b : body_extension) : bool := v_body_extension lv b && Nat.leb (be_depth b) (S d).
Lemma sat_be_leaf d : sat (arb_body_extension_leaf size) (fun b => btree d b = true).
Proof.
  unfold arb_body_extension_leaf. gsf ltac:(unfold btree; cbn [v_body_extension be_depth]; gconj; auto).
Qed.
Lemma sat_be_limited d : sat (arb_body_extension_limited size d) (fun b => btree d b = true).
Proof.
  induction d as [| d IH]; [apply sat_be_leaf |]. cbn [arb_body_extension_limited].
  apply sat_match; [reflexivity |]. gsl ltac:(unfold btree; cbn [v_body_extension be_depth]; gconj; auto).
  eapply sat_bind; [exact sat_len |]. intros n _. eapply sat_bind; [apply sat_times, IH |]. intros l Hl.
  apply sat_map. eapply (sat_nonempty_or _ _ (btree d)); [exact Hl | apply sat_be_leaf |].
  intros l' E Hl'. apply forallb_and in Hl' as [H1 H2]. unfold btree. cbn [v_body_extension be_depth].
  rewrite E, H1. cbn [andb]. apply Nat.leb_le. apply list_max_le' in H2. lia.
Qed.
Lemma sat_body_extension : sat (arb_body_extension simplified size) (fun b => vbe b = true).
Proof.
  assert (W : forall k, btree 3 k = true -> vbe k = true).
  { intros k H. unfold btree in H. gconj. unfold vbe. rewrite H. cbn [andb]. apply rt_intro.
    intros _. apply Nat.leb_le. apply Nat.leb_le in H0. lia. }
  unfold arb_body_extension. destruct simplified; eapply sat_weaken;
    [apply sat_be_leaf | exact W | apply sat_be_limited | exact W].
Qed.
Hint Resolve sat_body_extension : arb.
Lemma sat_location : sat (arb_location simplified size) (fun l => v_location lv l = true).
Proof.
  unfold arb_location. gsf ltac:(unfold v_location; cbn [loc_location loc_extensions]; gconj; auto).
Qed.
Hint Resolve sat_location : arb.
Lemma sat_language : sat (arb_language simplified size) (fun l => v_language lv l = true).
Proof. unfold arb_language. gsf ltac:(unfold v_language; cbn [lang_language lang_tail]; gconj; auto). Qed.
Lemma sat_params : sat (arb_params size) (fun l => v_params lv l = true).
Proof. unfold arb_params, v_params. gknown. Qed.
Hint Resolve sat_language sat_params : arb.
Lemma sat_disposition : sat (arb_disposition simplified size) (fun l => v_disposition lv l = true).
Proof. unfold arb_disposition. gsf ltac:(unfold v_disposition; cbn [disp_disposition disp_tail]; gconj; auto). Qed.
Hint Resolve sat_disposition : arb.
Lemma sat_single_ext : sat (arb_single_ext simplified size) (fun l => v_single_ext lv l = true).
Proof. unfold arb_single_ext. gsf ltac:(unfold v_single_ext; cbn [se_md5 se_tail]; gconj; auto). Qed.
Lemma sat_multi_ext : sat (arb_multi_ext simplified size) (fun l => v_multi_ext lv l = true).
Proof. unfold arb_multi_ext. gsf ltac:(unfold v_multi_ext; cbn [me_params me_tail]; gconj; auto). Qed.
Lemma sat_basic : sat (arb_basic size) (fun l => v_basic lv l = true).
Proof. unfold arb_basic. gsf ltac:(unfold v_basic; cbn [bf_params bf_id bf_description bf_encoding bf_size]; gconj; auto). Qed.
Hint Resolve sat_single_ext sat_multi_ext sat_basic : arb.

Definition bstree (d : nat) (b : body_structure) : bool := v_body_structure lv b && body_fits (S d) b.
Definition v_specific (d : nat) (s : specific_fields) : bool :=
  match s with
  | SFBasic t s => v_istring lv t && v_istring lv s
  | SFMessage e b n => v_envelope lv e && bstree d b && v_u32 n
  | SFText s n => v_istring lv s && v_u32 n
  end.
Lemma bs_fits_le b : forall n n', n <= n' -> body_fits n b = true -> body_fits n' b = true.
Proof.
  induction b as [b1 t s x | b1 s n0 x | b1 e c n0 x IHc | l s x IH] using body_ind'; cbn [body_fits]; intros n n' L H.
  - apply Nat.leb_le in H. apply Nat.leb_le. lia.
  - apply Nat.leb_le in H. apply Nat.leb_le. lia.
  - gconj; [| assumption]. apply Nat.leb_le in H. apply Nat.leb_le. lia.
  - apply andb_true_iff in H as [H1 H2]. apply Nat.leb_le in H1. apply andb_true_iff. split; [apply Nat.leb_le; lia |].
    rewrite forallb_forall in H2 |- *. rewrite Forall_forall in IH. intros y Hy.
    apply (IH y Hy (pred n)); [lia | auto].
Qed.
Lemma sat_if {A} (b : bool) (g h : gen A) P : sat g P -> sat h P -> sat (if b then g else h) P.
Proof. now destruct b. Qed.
Lemma sat_bs_leaf d : sat (arb_body_structure_leaf simplified size) (fun b => bstree d b = true).
Proof.
  eapply sat_bind; [exact sat_basic |]. intros b Hb.
  eapply (sat_bind _ _ (fun s => match s with SFMessage _ _ _ => false | _ => v_specific 0 s end = true)).
  { gsf ltac:(cbn [v_specific]; gconj; auto). }
  intros s Hs. eapply sat_bind; [apply sat_opt; exact sat_single_ext |]. intros x Hx. apply sat_ret.
  unfold bstree. cbv beta in *. destruct s; try discriminate; cbn [v_body_structure body_fits v_specific] in *;
    rewrite Hb, Hs, Hx; reflexivity.
Qed.
Lemma sat_bs_limited d : d <= 5 -> sat (arb_body_structure_limited simplified size d) (fun b => bstree d b = true).
Proof.
  induction d as [| d IH]; intros D; [apply sat_bs_leaf |]. assert (D' : d <= 5) by lia. specialize (IH D').
  cbn [arb_body_structure_limited]. cbv zeta.
  apply sat_match; [reflexivity |]. constructor; [| constructor; [| constructor]].
  - eapply sat_bind; [exact sat_basic |]. intros b Hb.
    eapply (sat_bind _ _ (fun s => v_specific d s = true)).
    { apply sat_match; [reflexivity |]. constructor; [| constructor; [| constructor; [| constructor]]].
      - gsf ltac:(cbn [v_specific]; gconj; auto).
      - eapply sat_bind; [exact sat_envelope |]. intros e He. eapply sat_bind; [exact IH |]. intros b' Hb'.
        eapply sat_bind; [exact sat_u32 |]. intros n Hn. apply sat_ret. cbn [v_specific]. cbv beta in *.
        now rewrite He, Hb', Hn.
      - gsf ltac:(cbn [v_specific]; gconj; auto). }
    intros s Hs. eapply sat_bind; [apply sat_opt; exact sat_single_ext |]. intros x Hx. apply sat_ret.
    unfold bstree. cbv beta in *. destruct s as [t st | e b1 n1 | st n1]; cbn [v_body_structure body_fits v_specific] in *.
    + rewrite Hb, Hs, Hx. reflexivity.
    + unfold bstree in Hs. apply andb_true_iff in Hs as [Hs Hn]. apply andb_true_iff in Hs as [He Hs].
      apply andb_true_iff in Hs as [Hv Hf]. rewrite Hb, He, Hv, Hn, Hx. cbn [andb Nat.leb].
      apply (bs_fits_le b1 (S d) 6); [lia | exact Hf].
    + rewrite Hb, Hs, Hx. reflexivity.
  - eapply sat_bind; [exact sat_len |]. intros n _. eapply sat_bind; [apply sat_times, IH |]. intros l Hl.
    eapply (sat_bind _ _ (fun l => nonempty l = true /\ forallb (bstree d) l = true)).
    { eapply (sat_nonempty_or _ _ (bstree d)); [exact Hl | apply sat_bs_leaf |]. auto. }
    intros bodies [E Hb]. eapply sat_bind; [exact sat_istring |]. intros s Hs.
    eapply sat_bind; [apply sat_opt; exact sat_multi_ext |]. intros x Hx. apply sat_ret.
    apply forallb_and in Hb as [H1 H2]. unfold bstree. cbn [v_body_structure body_fits]. cbv beta in *.
    rewrite E, H1, Hs, Hx. cbn [andb Nat.leb pred]. exact H2.
Qed.
Lemma sat_body_structure : sat (arb_body_structure simplified size) (fun b => v_body lv b = true).
Proof.
  assert (W : forall k, bstree 3 k = true -> v_body lv k = true).
  { intros k H. unfold bstree in H. apply andb_true_iff in H as [H1 H2]. unfold v_body. rewrite H1. cbn [andb]. apply rt_intro.
    intros _. apply (bs_fits_le k 4); [lia | exact H2]. }
  unfold arb_body_structure. apply sat_if; eapply sat_weaken; [apply sat_bs_leaf | exact W | | exact W].
  apply sat_bs_limited. lia.
Qed.
Hint Resolve sat_body_structure : arb.
Lemma sat_part : sat arb_part (fun p => v_part p = true).
Proof. unfold arb_part, v_part. gsf ltac:(gconj; auto). Qed.
Hint Resolve sat_part : arb.
Lemma sat_section : sat (arb_section size) (fun p => v_section lv p = true).
Proof. unfold arb_section. gsf ltac:(cbn [v_section]; gconj; auto). Qed.
Hint Resolve sat_section : arb.
Lemma sat_item_name : sat (arb_item_name size) (fun p => v_item_name lv p = true).
Proof. unfold arb_item_name. gsf ltac:(cbn [v_item_name]; gconj; auto). Qed.
Hint Resolve sat_item_name : arb.
Lemma sat_macro_or_items : sat (arb_macro_or_items size) (fun p => v_macro_or_items lv p = true).
Proof.
  unfold arb_macro_or_items. apply sat_enum. constructor; [| constructor; [| constructor]].
  - apply sat_map. unfold arb_macro. gsf ltac:(reflexivity).
  - gsf ltac:(cbn [v_macro_or_items]; assumption).
Qed.
Hint Resolve sat_macro_or_items : arb.

(** the flags FETCH can carry and that are read back as they were *)
Definition plain_item (m : message_data_item) : bool :=
  match m with MDFlags l => forallb not_recent l | _ => true end.
Lemma Forall_when {A} (C : Prop) (v p : A -> bool) l :
  Forall (fun a => C \/ p a = true -> v a = true) l -> C \/ forallb p l = true -> forallb v l = true.
Proof.
  rewrite Forall_forall. intros H K. apply forallb_forall. intros x Hx. apply (H x Hx).
  destruct K as [K | K]; [now left | right]. rewrite forallb_forall in K. auto.
Qed.
Lemma sat_message_data_item : sat (arb_message_data_item simplified size) (fun m => lv = LType \/ plain_item m = true ->
  v_message_data_item lv m = true).
Proof.
  unfold arb_message_data_item. apply sat_enum. apply Forall_app. split.
  - gsl ltac:(intros; cbn [v_message_data_item]; gconj; auto).
    apply sat_map. eapply sat_weaken; [apply sat_vec; exact sat_flag_fetch |]. cbv beta. intros l Hl.
    cbn [plain_item v_message_data_item]. now apply Forall_when.
  - apply Forall_cfg. intros Q. gsl ltac:(intros; cbn [v_message_data_item]; rewrite Q; gconj; auto; apply exact_any).
Qed.

(** ** Extensions *)
Lemma sat_sort_criterion : sat arb_sort_criterion (fun _ => (fun _ => true) tt = true).
Proof.
  unfold arb_sort_criterion. eapply sat_bind; [exact sat_bool |]. intros r _.
  eapply (sat_bind _ _ (fun _ => True)); [| intros k _; now apply sat_ret]. unfold arb_sort_key. gsf ltac:(exact I).
Qed.
Lemma sat_compression : sat arb_compression (fun _ => True).
Proof. unfold arb_compression. gsf ltac:(exact I). Qed.
Lemma sat_quota_get : sat (arb_quota_get size) (fun p => v_quota_get p = true).
Proof. unfold arb_quota_get. gsf ltac:(unfold v_quota_get; cbn [qg_resource qg_usage qg_limit]; gconj; auto). Qed.
Lemma sat_quota_set : sat (arb_quota_set size) (fun p => v_quota_set p = true).
Proof. unfold arb_quota_set. gsf ltac:(unfold v_quota_set; cbn [qs_resource qs_limit]; gconj; auto). Qed.
Lemma sat_entry_value : sat (arb_entry_value size) (fun p => v_entry_value lv p = true).
Proof. unfold arb_entry_value. gsf ltac:(unfold v_entry_value; cbn [ev_entry ev_value]; gconj; auto). Qed.
Hint Resolve sat_sort_criterion sat_compression sat_quota_get sat_quota_set sat_entry_value : arb.
Lemma sat_get_metadata_option : sat arb_get_metadata_option (fun p => v_get_metadata_option p = true).
Proof.
  unfold arb_get_metadata_option. apply sat_enum. constructor; [| constructor; [| constructor]].
  - gsf ltac:(cbn; assumption).
  - apply sat_map. unfold arb_depth. gsf ltac:(reflexivity).
Qed.
Lemma sat_metadata_code : sat arb_metadata_code (fun p => v_metadata_code p = true).
Proof. unfold arb_metadata_code. gsf ltac:(cbn [v_metadata_code]; auto). Qed.
Lemma sat_metadata_response : sat (arb_metadata_response size) (fun p => v_metadata_response lv p = true).
Proof. unfold arb_metadata_response. gsf ltac:(cbn [v_metadata_response]; auto). Qed.
Lemma sat_namespace_ext : sat (arb_namespace_ext size) (fun p => v_namespace_ext lv p = true).
Proof. unfold arb_namespace_ext. gsf ltac:(unfold v_namespace_ext; cbn [ne_key ne_values]; gconj; auto). Qed.
Hint Resolve sat_get_metadata_option sat_metadata_code sat_metadata_response sat_namespace_ext : arb.
Lemma sat_namespace : sat (arb_namespace size) (fun p => v_namespace lv p = true).
Proof. unfold arb_namespace. gsf ltac:(unfold v_namespace; cbn [ns_prefix ns_delimiter ns_extensions]; gconj; auto). Qed.
Lemma sat_select_parameter : sat arb_select_parameter (fun p => v_select_parameter lv p = true).
Proof. unfold arb_select_parameter. gsf ltac:(cbn [v_select_parameter]; gconj; auto). Qed.
Lemma sat_fetch_modifier : sat arb_fetch_modifier (fun p => v_fetch_modifier p = true).
Proof. unfold arb_fetch_modifier. gsf ltac:(cbn [v_fetch_modifier]; gconj; auto). Qed.
Lemma sat_store_modifier : sat arb_store_modifier (fun p => v_store_modifier p = true).
Proof. unfold arb_store_modifier. gsf ltac:(cbn [v_store_modifier]; gconj; auto). Qed.
Lemma sat_id_params : sat (arb_id_params size) (fun p => v_id_params lv p = true).
Proof.
  unfold arb_id_params. apply sat_option; [reflexivity |]. eapply sat_weaken; [gknown |]. cbv beta.
  intros l Hl. cbn [v_id_params]. destruct l; [apply exact_any | exact Hl].
Qed.
Hint Resolve sat_namespace sat_select_parameter sat_fetch_modifier sat_store_modifier sat_id_params : arb.

(** ** Threads *)
Definition ttree (d : nat) (t : thread) : bool := v_thread_tree t && Nat.leb (thread_depth t) d.
Lemma sat_thread_leaf : sat arb_thread_leaf (fun t => ttree 1 t = true).
Proof. unfold arb_thread_leaf. gsf ltac:(unfold ttree; cbn [v_thread_tree thread_depth]; gconj; auto). Qed.
Lemma ttree_le d d' t : d <= d' -> ttree d t = true -> ttree d' t = true.
Proof.
  unfold ttree. intros L H. apply andb_true_iff in H as [-> H]. apply Nat.leb_le in H. apply Nat.leb_le. lia.
Qed.
Lemma sat_thread_loop n : forall d t, ttree d t = true -> sat (arb_thread_loop n t) (fun t => ttree (n + d) t = true).
Proof.
  induction n as [| n IH]; intros d t H; cbn [arb_thread_loop]; [now apply sat_ret |].
  assert (H' := H). unfold ttree in H'. apply andb_true_iff in H' as [V D]. apply Nat.leb_le in D.
  assert (W : forall g, sat g (fun t => ttree (n + S d) t = true) -> sat g (fun t => ttree (S n + d) t = true)).
  { intros g. rewrite Nat.add_succ_r. auto. }
  apply sat_match; [reflexivity |]. constructor; [| constructor; [| constructor; [| constructor]]].
  - eapply (sat_bind _ _ (fun p => v1 v_nz32 p = true)); [gknown |]. intros p Hp. cbn [vec_n_from validate_vec_n g_unwrap].
    eapply (sat_bind _ _ (fun l => l = [t; t])); [now apply sat_ret |]. intros l ->. apply W, IH. unfold ttree.
    cbn [v_thread_tree thread_depth forallb atleast2 map list_max fold_right]. rewrite Hp, V. cbn [andb].
    apply Nat.leb_le. cbn. lia.
  - eapply (sat_bind _ _ (fun l => l = [t; t])); [now apply sat_ret |]. intros l ->. apply W, IH. unfold ttree.
    cbn [v_thread_tree thread_depth forallb atleast2 map list_max fold_right]. rewrite V. cbn [andb].
    apply Nat.leb_le. cbn. lia.
  - apply sat_ret. apply (ttree_le d); [lia | exact H].
Qed.
Lemma sat_thread : sat (arb_thread simplified) (fun t => v_thread lv t = true).
Proof.
  assert (W : forall k, ttree 8 k = true -> v_thread lv k = true).
  { intros k H. unfold ttree in H. apply andb_true_iff in H as [H1 H2]. unfold v_thread. rewrite H1. now apply rt_intro. }
  unfold arb_thread. apply sat_if; eapply sat_weaken; [exact sat_thread_leaf | | | exact W].
  - intros t H. apply W, (ttree_le 1); [lia | exact H].
  - unfold arb_thread_limited. eapply sat_bind; [exact sat_thread_leaf |]. intros t H. now apply (sat_thread_loop 7 1).
Qed.
Hint Resolve sat_thread : arb.

(** ** Commands *)
Lemma sat_command_body : sat (arb_command_body simplified size) (fun c => v_command_body lv c = true).
Proof.
  unfold arb_command_body. apply sat_enum.
  gsl ltac:(cbn [v_command_body]; rewrite ?andb_true_iff; repeat split; auto).
  - eapply sat_bind; [gknown |]. cbv beta. intros m Hm.
    eapply (sat_bind _ _ (fun _ => True)); [apply sat_option; [exact I | eapply sat_weaken; [exact sat_bytes | auto]] |].
    intros i _. now apply sat_ret.
  - eapply (sat_bind _ _ (fun l => v1 (fun _ => true) l = true)); [apply sat_vec1, sat_sort_criterion |]. intros so Hso.
    gsf ltac:(cbn [v_command_body]; unfold v1 in Hso; apply andb_true_iff in Hso as [-> _]; gconj; auto).
Qed.
Hint Resolve sat_command_body : arb.
Lemma sat_command : sat (arb_command simplified size) (fun c => v_command lv c = true).
Proof. unfold arb_command. gsf ltac:(unfold v_command; cbn [cmd_tag cmd_body]; gconj; auto). Qed.

(** ** Responses *)
Hypothesis Href : lv = LType \/ (ext_mailbox_referrals || ext_login_referrals) = false.
Lemma sat_code : sat (arb_code size) (fun c => forall t, v_code lv other_name c t = true).
Proof.
  unfold arb_code. apply sat_enum. gsl ltac:(intros; cbn [v_code]; rewrite ?andb_true_iff; repeat split; auto).
  - apply sat_map. eapply sat_weaken; [exact sat_str |]. cbv beta. intros s [Hs _] t. cbn [v_code].
    destruct Href as [-> | E]; [| congruence]. rewrite Hs, orb_comm, H. reflexivity.
  - apply sat_map, sat_ret. intros t. cbn [v_code]. apply rt_intro. intros _. unfold other_name, known_codes.
    destruct ext_metadata, ext_condstore_qresync; reflexivity.
Qed.
Lemma sat_plain_text : sat (arb_plain_text size) (fun t => text_ok t = true /\ starts_with (bs "[") t = false).
Proof.
  unfold arb_plain_text. eapply sat_bind; [exact sat_text |]. intros t Ht. cbv beta in Ht.
  destruct (starts_with (bs "[") t) eqn:E; [| now apply sat_ret]. apply sat_ret. split; reflexivity.
Qed.
Hint Resolve sat_code sat_plain_text : arb.
Lemma code_text_plain c t : match c with Some c => forall t, v_code lv other_name c t = true | None => True end ->
  text_ok t = true /\ starts_with (bs "[") t = false -> v_code_text lv other_name c t = true.
Proof.
  intros Hc [Ht Hs]. unfold v_code_text. rewrite Ht. destruct c; cbn [andb]; [apply Hc |].
  apply rt_intro. now rewrite Hs.
Qed.
Lemma sat_opt_code : sat (g_option (arb_code size))
  (fun c => match c with Some c => forall t, v_code lv other_name c t = true | None => True end).
Proof. apply sat_option; [exact I | exact sat_code]. Qed.
Lemma sat_greeting : sat (arb_greeting size) (fun g => v_greeting lv other_name g = true).
Proof.
  unfold arb_greeting. eapply (sat_bind _ _ (fun _ => True)); [unfold arb_greeting_kind; gsf ltac:(exact I) |].
  intros k _. eapply sat_bind; [exact sat_opt_code |]. intros c Hc. eapply sat_bind; [exact sat_plain_text |].
  intros t Ht. apply sat_ret. unfold v_greeting. cbn [gr_code gr_text]. now apply code_text_plain.
Qed.
Lemma sat_tagged_or_not b : v_status_body lv other_name b = true ->
  sat (arb_tagged_or_not size b) (fun s => v_status lv other_name s = true).
Proof.
  intros Hb. unfold arb_tagged_or_not. eapply sat_bind; [apply sat_opt; exact sat_tag |]. intros t Ht. apply sat_ret.
  destruct t as [t |]; cbn [v_status]; [| exact Hb]. cbn in Ht. now rewrite Ht.
Qed.
Lemma sat_status : sat (arb_status size) (fun s => v_status lv other_name s = true).
Proof.
  unfold arb_status. eapply sat_bind; [exact sat_opt_code |]. intros c Hc.
  eapply (sat_bind _ _ (fun t => v_code_text lv other_name c t = true)).
  - destruct c as [c |].
    + eapply sat_weaken; [exact sat_text |]. cbv beta. intros t Ht. unfold v_code_text. now rewrite Ht, Hc.
    + eapply sat_weaken; [exact sat_plain_text |]. intros t Ht. now apply code_text_plain.
  - intros t Ht. apply sat_match; [reflexivity |].
    repeat (constructor; [first [apply sat_tagged_or_not; exact Ht | apply sat_ret; exact Ht] |]). constructor.
Qed.
Definition no_recent_keyword (r : response) : bool :=
  match r with RData (DFetch _ l) => forallb plain_item l | _ => true end.
Lemma sat_modseq : sat arb_modseq (fun m => match m with Some n => ext_condstore_qresync && v_nz64 n | None => true end = true).
Proof.
  unfold arb_modseq. destruct ext_condstore_qresync; [| now apply sat_ret].
  apply sat_option; [reflexivity |]. eapply sat_weaken; [exact sat_nz64 |]. auto.
Qed.
Hint Resolve sat_modseq : arb.
Lemma sat_data : sat (arb_data simplified size) (fun d => lv = LType \/ no_recent_keyword (RData d) = true ->
  v_data lv d = true).
Proof.
  unfold arb_data. apply sat_enum. gsl ltac:(intros; cbn [v_data]; rewrite ?andb_true_iff; repeat split; auto).
  eapply sat_bind; [exact sat_nz32 |]. intros n Hn. eapply sat_bind; [apply sat_vec1P, sat_message_data_item |].
  intros l [E Hl]. apply sat_ret. intros K. cbn [no_recent_keyword] in K. cbn [v_data]. cbv beta in Hn. unfold v1.
  rewrite Hn, E. cbn [andb]. now apply (Forall_when (lv = LType) _ plain_item).
Qed.
Lemma sat_continuation : sat (arb_continuation size) (fun c => v_continuation lv other_name c = true).
Proof.
  unfold arb_continuation. apply sat_enum. constructor; [| constructor; [| constructor]].
  - unfold arb_continuation_basic. eapply sat_bind; [exact sat_opt_code |]. intros c Hc.
    eapply sat_bind; [exact sat_text |]. intros t Ht. cbv beta in Ht. unfold continue_basic_new.
    assert (E : text_from_bytes t = COk t) by (now apply text_conv, text_ok_spec).
    unfold with_arg. rewrite E. destruct c as [c |]; cbn [andb].
    + apply sat_ret. cbn [v_continuation]. now rewrite Ht, Hc.
    + destruct (starts_with (bs "[") t) eqn:S; [apply sat_fail |].
      destruct (b64_decode t) eqn:B; [apply sat_fail |].
      apply sat_ret. cbn [v_continuation]. now rewrite Ht, S, B.
  - apply sat_map. eapply sat_weaken; [exact sat_bytes |]. reflexivity.
Qed.
Lemma sat_response : sat (arb_response simplified size) (fun r => lv = LType \/ no_recent_keyword r = true ->
  v_response lv other_name r = true).
Proof.
  unfold arb_response. apply sat_enum. constructor; [| constructor; [| constructor; [| constructor]]]; apply sat_map.
  - eapply sat_weaken; [exact sat_continuation |]. auto.
  - exact sat_data.
  - eapply sat_weaken; [exact sat_status |]. auto.
Qed.
End ArbFacts.

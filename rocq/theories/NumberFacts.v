(** Every rule of the grammar shows the numbers of its value. *)

From Verif Require Import Bytes Features Nom Types ValueSpec Grammar ValidFacts NumberSpec.
Open Scope N_scope.

(** ** Contexts *)
(** A text that does not start (end) with a digit *)
Definition sn (t : bytes) : Prop := ~ starts_with_digit t.
Definition en (t : bytes) : Prop := ~ ends_with_digit t.

Lemma sn_nil : sn [].
Proof. intros (b & u & E & _). discriminate. Qed.
Lemma en_nil : en [].
Proof. intros (b & u & E & _). destruct b; discriminate. Qed.
Lemma sn_cons b u : ~ is_a_digit b -> sn (b :: u).
Proof. intros H (c & v & E & D). injection E as -> ->. contradiction. Qed.
Lemma sn_app a b : sn a -> sn b -> sn (a ++ b).
Proof. destruct a as [| x a]; [auto |]. cbn. intros H _ (c & v & E & D). injection E as -> <-. apply H. now exists c, a. Qed.
Lemma en_snoc u b : ~ is_a_digit b -> en (u ++ [b]).
Proof. intros H (v & c & E & D). apply app_inj_tail in E as [_ ->]. contradiction. Qed.
Lemma en_app a b : en a -> en b -> en (a ++ b).
Proof.
  intros Ha Hb (v & c & E & D). destruct b as [| x b] using rev_ind.
  - rewrite app_nil_r in E. apply Ha. now exists v, c.
  - rewrite app_assoc in E. apply app_inj_tail in E as [_ ->]. apply Hb. now exists b, c.
Qed.
Lemma en_app_r a b : b <> [] -> en b -> en (a ++ b).
Proof.
  intros N Hb (v & c & E & D). destruct b as [| x b] using rev_ind; [contradiction |].
  rewrite app_assoc in E. apply app_inj_tail in E as [_ ->]. apply Hb. now exists b, c.
Qed.

(** Decision procedures, for concrete texts *)
Definition digitb (b : byte) : bool := (0x30 <=? bN b) && (bN b <=? 0x39).
Lemma digitb_false b : digitb b = false -> ~ is_a_digit b.
Proof. unfold digitb, is_a_digit. destruct (N.leb_spec 0x30 (bN b)), (N.leb_spec (bN b) 0x39); cbn; intros; try lia; discriminate. Qed.
Definition snb (t : bytes) : bool := match t with b :: _ => negb (digitb b) | [] => false end.
Definition enb (t : bytes) : bool := snb (rev t).
Lemma snb_sn t u : snb t = true -> sn (t ++ u).
Proof. destruct t as [| b t]; [discriminate |]. cbn. intros H. apply sn_cons, digitb_false. now destruct (digitb b). Qed.
Lemma enb_en t u : enb t = true -> en (u ++ t).
Proof.
  unfold enb. intros H. destruct t as [| b t] using rev_ind; [discriminate |]. rewrite rev_app_distr in H. cbn in H.
  rewrite app_assoc. apply en_snoc, digitb_false. now destruct (digitb b).
Qed.
Lemma same_letter_digit a b : same_letter a b -> digitb b = false -> digitb a = false.
Proof.
  intros [-> | H]; [auto |]. intros _. unfold digitb.
  destruct (N.leb_spec 0x30 (bN a)), (N.leb_spec (bN a) 0x39); cbn; try reflexivity. lia.
Qed.
Lemma sl_snb t k : same_letters t k -> snb k = true -> snb t = true.
Proof.
  intros [| a b t' k' H _]; [discriminate |]. cbn. intros E.
  now rewrite (same_letter_digit a b H) by now destruct (digitb b).
Qed.
Lemma Forall2_rev' {A B} (R : A -> B -> Prop) l m : Forall2 R l m -> Forall2 R (rev l) (rev m).
Proof. induction 1; cbn; [constructor |]. apply Forall2_app; [assumption | now constructor]. Qed.
Lemma sl_enb t k : same_letters t k -> enb k = true -> enb t = true.
Proof. unfold enb. intros H. apply sl_snb. now apply Forall2_rev'. Qed.

Section Numbers.
Context {F : features}.

Lemma reads_more x q l : sn q -> reads q l -> reads (x ++ q) l.
Proof.
  intros S H. destruct H as [q | x' d y n l E N D Sy L R | x' d y v l Q N D Sy R].
  - constructor.
  - rewrite app_assoc. apply reads_number; try assumption.
    destruct x' as [| b x'].
    + exfalso. cbn [app] in S. destruct d as [| b d]; [contradiction |]. apply S. exists b, (d ++ y). split; [reflexivity |].
      assert (forall t m, digits t m -> Forall is_a_digit t) as W.
      { induction 1; [constructor |]. apply Forall_app. split; [assumption | now repeat constructor]. }
      apply W in D. now inversion D.
    + apply en_app_r; [discriminate | exact E].
  - rewrite app_assoc. eapply reads_negative; eassumption.
Qed.

(** [shows t l]: in a context without adjacent digits, [t] contributes the numbers [l]. *)
Definition shows (t : bytes) (l : list number) : Prop := forall p q m,
  en p -> sn q -> reads q m -> reads (p ++ t ++ q) (l ++ m).
Definition has {A} (L : lang A) (f : A -> list number) : Prop := forall t a, L t a -> shows t (f a).

Lemma shows_reads t l : shows t l -> reads t l.
Proof. intros H. specialize (H [] [] [] en_nil sn_nil (reads_end [])). cbn in H. now rewrite !app_nil_r in H. Qed.
Lemma shows_none t : shows t [].
Proof. intros p q m _ S R. cbn. rewrite app_assoc. now apply reads_more. Qed.
Lemma shows_cat t u l m k : shows t l -> sn u -> shows u m -> k = l ++ m -> shows (t ++ u) k.
Proof.
  intros Ht Su Hu -> p q r Ep Sq R. rewrite <- !app_assoc. apply Ht; [exact Ep | now apply sn_app |].
  apply (Hu [] q r en_nil Sq R).
Qed.
Lemma shows_pre t u m : en t -> shows u m -> shows (t ++ u) m.
Proof.
  intros Et Hu p q r Ep Sq R. rewrite <- app_assoc, app_assoc. apply Hu; try assumption. now apply en_app.
Qed.
Lemma shows_suf t u l : shows t l -> sn u -> shows (t ++ u) l.
Proof. intros H S. eapply shows_cat; [exact H | exact S | apply shows_none | now rewrite app_nil_r]. Qed.
Lemma has_num t n lo hi : lo <= n -> G_num hi t n -> shows t [mkNumber lo hi n].
Proof.
  intros Hl (N & D & Hh) p q m Ep Sq R. cbn. apply reads_number; cbn; auto.
Qed.
Lemma has_u32 : has G_number (fun n => [u32 n]).
Proof. intros t n H. apply has_num; [apply N.le_0_l | exact H]. Qed.
Lemma has_u64 : has G_number64 (fun n => [u64 n]).
Proof. intros t n H. apply has_num; [apply N.le_0_l | exact H]. Qed.
Lemma has_nz32 : has G_nz_number (fun n => [nz32 n]).
Proof. intros t n [H Z]. apply has_num; [lia | exact H]. Qed.
Lemma has_nz64 : has G_nz_number64 (fun n => [nz64 n]).
Proof. intros t n [H Z]. apply has_num; [lia | exact H]. Qed.

(** ** Lists *)
Lemma has_sep_by {A} sep (L : lang A) f : snb sep = true -> enb sep = true -> has L f ->
  has (sep_by sep L) (flat_map f).
Proof.
  intros S E H t l. induction 1 as [t a Ha | t a u l Ha Hl IH]; cbn.
  - rewrite app_nil_r. now apply H.
  - eapply shows_cat; [exact (H _ _ Ha) | now apply snb_sn | | reflexivity].
    apply shows_pre; [| exact IH]. apply (enb_en sep []). exact E.
Qed.
Lemma has_list_of {A} sep (L : lang A) f : snb sep = true -> enb sep = true -> has L f ->
  has (list_of sep L) (flat_map f).
Proof. intros S E H t l []; [apply shows_none |]. now apply (has_sep_by sep L f S E H). Qed.
Lemma has_many {A} (L : lang A) f : (forall t a, L t a -> sn t) -> has L f -> has (many L) (flat_map f).
Proof.
  intros S H t l M. enough (shows t (flat_map f l) /\ sn t) by tauto.
  induction M as [| t a u l Ha Hl [IH IS]]; cbn.
  - split; [apply shows_none | apply sn_nil].
  - split; [| apply sn_app; eauto]. eapply shows_cat; [exact (H _ _ Ha) | exact IS | exact IH | reflexivity].
Qed.
Lemma has_at_least {A} n (L : lang A) f : (forall t a, L t a -> sn t) -> has L f ->
  has (at_least n L) (flat_map f).
Proof. intros S H t l [M _]. now apply (has_many L f S H). Qed.
Lemma has_optional {A} (L : lang A) f : has L f -> has (optional L) (opt_numbers f).
Proof. intros H t o []; [apply shows_none | now apply H]. Qed.
Lemma sn_optional {A} (L : lang A) t o : (forall t a, L t a -> sn t) -> optional L t o -> sn t.
Proof. intros H []; [apply sn_nil | eauto]. Qed.
Lemma has_parens {A} (L : lang A) f : has L f -> has (in_parens L) f.
Proof.
  intros H t a [t' a' H']. apply shows_pre; [now apply (enb_en (bs "(") []) |].
  apply shows_suf; [now apply H | exact (snb_sn (bs ")") [] eq_refl)].
Qed.
Lemma sn_parens {A} (L : lang A) t a : in_parens L t a -> sn t.
Proof. intros []. now apply snb_sn. Qed.
Lemma has_after {A} s (L : lang A) f : enb s = true -> has L f -> has (after s L) f.
Proof. intros E H t a [t' a' H']. apply shows_pre; [now apply (enb_en s []) | now apply H]. Qed.
Lemma sn_after {A} s (L : lang A) t a : snb s = true -> after s L t a -> sn t.
Proof. intros E []. now apply snb_sn. Qed.
Lemma has_opt_list {A} (L : lang A) f : has L f -> has (opt_list L) (flat_map f).
Proof.
  intros H t l []; [apply shows_none |]. apply shows_pre; [now apply (enb_en (bs " ") []) |].
  now apply (has_parens _ _ (has_sep_by (bs " ") L f eq_refl eq_refl H)).
Qed.
Lemma sn_opt_list {A} (L : lang A) t l : opt_list L t l -> sn t.
Proof. intros []; [apply sn_nil | now apply snb_sn]. Qed.
Lemma has_condstore {A} (L : lang A) f : has L f -> has (condstore_list L) (flat_map f).
Proof. intros H t l [[-> ->] | [_ H']]; [apply shows_none | now apply (has_opt_list L f H)]. Qed.
Lemma sn_condstore {A} (L : lang A) t l : condstore_list L t l -> sn t.
Proof. intros [[-> _] | [_ H]]; [apply sn_nil | eapply sn_opt_list; exact H]. Qed.
Lemma flat_map_single {A} (f : A -> number) l : flat_map (fun n => [f n]) l = map f l.
Proof. induction l; cbn; congruence. Qed.
Lemma shows_eq t l m : l = m -> shows t l -> shows t m.
Proof. now intros ->. Qed.
Lemma word_num {A} (t : bytes) (x : A) table (P : bytes -> A -> Prop) :
  word table t x -> (forall s a, In (s, a) table -> P s a) -> exists s, same_letters t s /\ P s x.
Proof. intros [t' s a I E] H. exists s. split; [exact E | now apply H]. Qed.

(** ** Tactics *)
(** A concrete text or a keyword that ends (starts) with a non-digit *)
Ltac is_en := match goal with
  | |- en (bs ?k) => exact (enb_en (bs k) [] eq_refl)
  | |- en [] => exact en_nil
  | H : same_letters ?k _ |- en ?k => exact (enb_en k [] (sl_enb _ _ H eq_refl))
  end.
Ltac is_sn := repeat match goal with
  | |- sn (bs _ ++ _) => apply snb_sn; reflexivity
  | |- sn (bs ?k) => exact (snb_sn (bs k) [] eq_refl)
  | |- sn [] => exact sn_nil
  | H : same_letters ?k _ |- sn ?k => pose proof (snb_sn k [] (sl_snb _ _ H eq_refl)) as X; rewrite app_nil_r in X; exact X
  | |- sn (_ ++ _) => apply sn_app
  | |- sn _ => solve [eauto with num]
  end.
Ltac list_eq := cbn [opt_numbers flat_map]; rewrite ?app_nil_r, <- ?app_assoc; cbn [app]; try reflexivity.

Lemma has_seq_number : has G_seq_number seq_or_uid_numbers.
Proof. intros t a []; [now apply has_nz32 | apply shows_none]. Qed.
Lemma has_sequence : has G_sequence sequence_numbers.
Proof.
  intros t a [t' a' H | t' a' u b H1 H2]; [now apply has_seq_number |].
  eapply shows_cat; [apply has_seq_number; eassumption | is_sn | apply shows_pre; [is_en | apply has_seq_number; eassumption] | reflexivity].
Qed.
Lemma has_set : has G_sequence_set set_numbers.
Proof. apply has_sep_by; [reflexivity | reflexivity | apply has_sequence]. Qed.

(** One step: a keyword or a fixed text in front, a piece with numbers in front of a separator. *)
Ltac piece := solve [eauto with num].
Ltac shw := match goal with
  | |- shows (bs _ ++ _) _ => apply shows_pre; [is_en | shw]
  | H : same_letters ?k _ |- shows (?k ++ _) _ => first [apply shows_pre; [is_en | shw] | eapply shows_cat; [apply shows_none | is_sn | shw | reflexivity]]
  | |- shows (_ ++ _) _ => eapply shows_cat; [piece | is_sn | shw | try match goal with |- ?m = _ => is_evar m; reflexivity end]
  | |- shows _ _ => piece
  end.
Hint Resolve sn_nil : num.
Hint Extern 9 (shows _ _) => (apply shows_none) : num.
Hint Extern 1 (shows _ _) => (eapply has_u32; eassumption) : num.
Hint Extern 1 (shows _ _) => (eapply has_u64; eassumption) : num.
Hint Extern 1 (shows _ _) => (eapply has_nz32; eassumption) : num.
Hint Extern 1 (shows _ _) => (eapply has_nz64; eassumption) : num.
Hint Extern 1 (shows _ _) => (eapply has_set; eassumption) : num.
Lemma has_known_uids : has G_known_uids sets_numbers.
Proof. intros t a [t' a' u b H1 H2]. unfold sets_numbers. cbn [fst snd]. shw; list_eq. Qed.
Hint Extern 1 (shows _ _) => (eapply has_known_uids; eassumption) : num.

Ltac leaf := intros t a H; destruct H; cbn [opt_numbers]; first [apply shows_none | shw; list_eq].

Lemma has_keys_of l : Forall (fun k => forall t, G_search_key t k -> shows t (key_numbers k)) l ->
  forall t, sep_by (bs " ") G_search_key t l -> shows t (flat_map key_numbers l).
Proof.
  intros H t S. induction S as [t a Ha | t a u l Ha Hl IH]; inversion_clear H as [| ? ? H1 H2]; cbn [flat_map].
  - rewrite app_nil_r. auto.
  - eapply shows_cat; [exact (H1 _ Ha) | is_sn | apply shows_pre; [is_en | exact (IH H2)] | reflexivity].
Qed.
Lemma word_none {A} (table : list (bytes * A)) (f : A -> list number) :
  Forall (fun p => f (snd p) = []) table -> has (word table) f.
Proof.
  intros H t a [t' s a' I E]. rewrite Forall_forall in H. specialize (H _ I). cbn in H. rewrite H. apply shows_none.
Qed.
Lemma word_fn {A B} (table : list (bytes * (B -> A))) (f : A -> list number) t g x :
  word table t g -> Forall (fun p => forall x, f (snd p x) = []) table -> f (g x) = [].
Proof. intros [t' s a' I E] H. rewrite Forall_forall in H. apply (H _ I). Qed.
Definition sub_keys (Q : search_key -> Prop) (k : search_key) : Prop :=
  match k with KAnd l => Forall Q l | KNot k => Q k | KOr a b => Q a /\ Q b | _ => True end.
Lemma has_key_step t k : G_search_key t k ->
  sub_keys (fun k => forall t, G_search_key t k -> shows t (key_numbers k)) k -> shows t (key_numbers k).
Proof.
  intros H IH. destruct H; cbn [sub_keys] in IH; try (cbn [key_numbers]; shw; list_eq; fail).
  - revert H. apply word_none. repeat constructor.
  - erewrite word_fn; [apply shows_none | eassumption | repeat constructor].
  - erewrite word_fn; [apply shows_none | eassumption | repeat constructor].
  - cbn [key_numbers]. destruct IH as [IH1 IH2]. specialize (IH1 _ H0). specialize (IH2 _ H1). shw; list_eq.
  - destruct H. cbn [key_numbers]. apply shows_pre; [is_en |]. apply shows_suf; [now apply has_keys_of | is_sn].
Qed.
Lemma has_key : has G_search_key key_numbers.
Proof.
  intros t k. revert t. induction k as [l IH | k IH | k1 k2 IH1 IH2 | k Hk] using key_ind'; intros t H;
    apply (has_key_step t _ H); cbn; auto. destruct k; cbn; auto; contradiction.
Qed.
Lemma has_keys : has G_search_keys keys_numbers.
Proof. intros t l []. now apply (has_sep_by (bs " ") _ _ eq_refl eq_refl has_key). Qed.
Hint Extern 1 (shows _ _) => (eapply has_keys; eassumption) : num.

Lemma has_status_val : has G_status_val status_item_numbers.
Proof.
  intros t a [k L f t' n W H]. inversion W as [k' s a' I E]; subst; clear W. unfold status_val_table, when in I.
  destruct ext_condstore_qresync; cbn in I; repeat destruct I as [I | I]; try contradiction; inversion I; subst; clear I;
    cbn [status_item_numbers]; shw.
Qed.
Lemma has_part : has G_part part_numbers.
Proof. intros t a H. unfold part_numbers. rewrite <- flat_map_single. now apply (has_sep_by (bs ".") _ _ eq_refl eq_refl has_nz32). Qed.
Hint Extern 1 (shows _ _) => (eapply has_part; eassumption) : num.
Lemma has_part_dot : has G_part_dot (opt_numbers part_numbers).
Proof. leaf. Qed.
Hint Extern 1 (shows _ _) => (eapply has_part_dot; eassumption) : num.
Lemma has_section_spec : has G_section_spec section_numbers.
Proof. intros t a []; cbn [section_numbers]; shw; list_eq. Qed.
Hint Extern 1 (shows _ _) => (eapply has_section_spec; eassumption) : num.
Lemma has_section : has G_section (opt_numbers section_numbers).
Proof.
  intros t a [t' s H]. apply shows_pre; [is_en |]. apply shows_suf; [| is_sn]. revert H. apply has_optional, has_section_spec.
Qed.
Lemma sn_section t s : G_section t s -> sn t.
Proof. intros []. is_sn. Qed.
Hint Extern 1 (shows _ _) => (eapply has_section; eassumption) : num.
Lemma has_section_binary : has G_section_binary part_numbers.
Proof. leaf. Qed.
Lemma sn_section_binary t s : G_section_binary t s -> sn t.
Proof. intros []; is_sn. Qed.
Hint Extern 1 (shows _ _) => (eapply has_section_binary; eassumption) : num.
Lemma has_partial : has G_partial partial_numbers.
Proof. leaf. Qed.
Lemma sn_partial t s : G_partial t s -> sn t.
Proof. intros []; is_sn. Qed.
Lemma sn_opt_partial t s : optional G_partial t s -> sn t.
Proof. apply sn_optional. apply sn_partial. Qed.
Hint Extern 1 (shows _ _) => (eapply (has_optional G_partial _ has_partial); eassumption) : num.
Hint Resolve sn_section sn_section_binary sn_opt_partial sn_condstore sn_opt_list : num.
Lemma has_fetch_att : has G_fetch_att item_numbers.
Proof.
  intros t a []; cbn [item_numbers]; try (shw; list_eq; fail).
  revert H. apply word_none. unfold fetch_words, when. destruct ext_condstore_qresync; repeat constructor.
Qed.
Lemma has_items : has G_macro_or_items macro_or_items_numbers.
Proof.
  intros t a [t' m H | t' i H | t' l H]; cbn [macro_or_items_numbers]; [apply shows_none | |].
  - cbn. rewrite app_nil_r. now apply has_fetch_att.
  - revert H. apply has_parens. apply has_list_of; [reflexivity | reflexivity | apply has_fetch_att].
Qed.
Hint Extern 1 (shows _ _) => (eapply has_items; eassumption) : num.
Lemma has_gm_option : has G_getmetadata_option metadata_option_numbers.
Proof. leaf. Qed.
Lemma has_quota_set : has G_quota_set quota_set_numbers.
Proof. intros t a []. unfold quota_set_numbers. cbn [qs_limit]. shw; list_eq. Qed.
Lemma has_select : has G_select_param select_numbers.
Proof.
  intros t a [|]; [apply shows_none |]. cbn [select_numbers].
  pose proof (sn_optional _ _ _ (fun t a => sn_after (bs " ") G_sequence_set t a eq_refl) H2) as S2.
  pose proof (sn_optional _ _ _ (fun t a => sn_after (bs " ") G_known_uids t a eq_refl) H3) as S3.
  pose proof (has_optional _ _ (has_after (bs " ") _ _ eq_refl has_set) _ _ H2) as B2.
  pose proof (has_optional _ _ (has_after (bs " ") _ _ eq_refl has_known_uids) _ _ H3) as B3.
  shw; list_eq.
Qed.
Lemma has_fetch_modifier : has G_fetch_modifier fetch_modifier_numbers.
Proof. leaf. Qed.
Lemma has_store_modifier : has G_store_modifier store_modifier_numbers.
Proof. leaf. Qed.
Hint Extern 1 (shows _ _) => (eapply (has_condstore _ _ has_select); eassumption) : num.
Hint Extern 1 (shows _ _) => (eapply (has_condstore _ _ has_fetch_modifier); eassumption) : num.
Hint Extern 1 (shows _ _) => (eapply (has_condstore _ _ has_store_modifier); eassumption) : num.
Hint Extern 1 (shows _ _) => (eapply (has_opt_list _ _ has_gm_option); eassumption) : num.
Hint Extern 1 (shows _ _) => (eapply (has_parens _ _ (has_list_of (bs " ") _ _ eq_refl eq_refl has_quota_set)); eassumption) : num.

(** ** Commands *)
Lemma sn_uid t b : G_uid t b -> sn t.
Proof. intros []; is_sn. Qed.
Lemma en_uid t b : G_uid t b -> en t.
Proof. intros []; is_en. Qed.
Lemma sn_silent t b : G_silent t b -> sn t.
Proof. intros []; is_sn. Qed.
Hint Resolve sn_silent : num.
Ltac cmd := lazymatch goal with H : G_uid ?u _ |- shows (?u ++ _) _ => apply shows_pre; [exact (en_uid _ _ H) | shw] | _ => shw end.
Lemma has_command_body : has G_command_body body_numbers.
Proof.
  intros t c []; cbn [body_numbers]; try (cmd; list_eq; fail); try apply shows_none.
  - revert H. apply word_none. unfold command_words, when. destruct ext_namespace, starttls; repeat constructor.
  - erewrite word_fn; [apply shows_none | eassumption | repeat constructor].
Qed.
Lemma has_command : has G_command command_numbers.
Proof.
  intros t c [tt tag t' b e H1 H2 H3]. unfold command_numbers. cbn [cmd_body].
  pose proof (has_command_body _ _ H2) as B.
  assert (sn e) as S by (destruct H3 as [-> | [_ ->]]; [now apply (snb_sn [bCR; bLF] []) | now apply (snb_sn [bLF] [])]).
  eapply shows_cat; [apply shows_none | is_sn | | reflexivity]. apply shows_pre; [is_en |]. now apply shows_suf.
Qed.

(** ** Body structures *)
Lemma has_octets : has G_octets (fun n => [u32 n]).
Proof.
  intros t a [t' n H | t' n Q H]; [now apply has_u32 |].
  intros p q m Ep Sq R. destruct H as (N & D & _). rewrite <- app_assoc. eapply reads_negative; eassumption.
Qed.
Hint Extern 1 (shows _ _) => (eapply has_octets; eassumption) : num.
Lemma has_fields : has G_body_fields (fun b => [u32 (bf_size b)]).
Proof. intros t a []. cbn [bf_size]. repeat (eapply shows_cat; [apply shows_none | is_sn | apply shows_pre; [is_en |] | reflexivity]). now apply has_octets. Qed.
Hint Extern 1 (shows _ _) => (eapply has_fields; eassumption) : num.
Lemma has_extension e : forall d t, G_body_extension d t e -> shows t (extension_numbers e).
Proof.
  induction e as [n | n | l IH] using be_ind'; intros d t H; inversion H; subst; cbn [extension_numbers]; try (shw; fail).
  match goal with W : in_parens _ _ _ |- _ => destruct W as [u l' S] end.
  apply shows_pre; [is_en |]. apply shows_suf; [| is_sn]. clear H.
  induction S as [t a Ha | t a u l Ha Hl IHl]; inversion_clear IH as [| ? ? H1 H2]; cbn [flat_map].
  - rewrite app_nil_r. eauto.
  - eapply shows_cat; [exact (H1 _ _ Ha) | is_sn | apply shows_pre; [is_en | exact (IHl H2)] | reflexivity].
Qed.
Lemma has_location : has G_location location_numbers.
Proof.
  intros t a [t' l u e H1 H2]. unfold location_numbers. cbn [loc_extensions].
  assert (sn u) as S by (destruct H2 as [| ? ? ? ? [] _]; rewrite <- ?app_assoc; is_sn).
  apply shows_pre; [is_en |]. eapply shows_cat; [apply shows_none | exact S | | reflexivity].
  revert H2. apply has_many; [intros ? ? W; exact (sn_after (bs " ") _ _ _ eq_refl W) |].
  apply has_after; [reflexivity |]. intros ? ?. apply has_extension.
Qed.
Lemma sn_location t a : G_location t a -> sn t.
Proof. intros []. is_sn. Qed.
Lemma has_language : has G_language language_numbers.
Proof.
  intros t a [t' l u e H1 H2]. unfold language_numbers. cbn [lang_tail].
  apply shows_pre; [is_en |]. eapply shows_cat; [apply shows_none | exact (sn_optional _ _ _ sn_location H2) | | reflexivity].
  revert H2. apply has_optional, has_location.
Qed.
Lemma sn_language t a : G_language t a -> sn t.
Proof. intros []. is_sn. Qed.
Lemma has_disposition : has G_disposition disposition_numbers.
Proof.
  intros t a [t' l u e H1 H2]. unfold disposition_numbers. cbn [disp_tail].
  apply shows_pre; [is_en |]. eapply shows_cat; [apply shows_none | exact (sn_optional _ _ _ sn_language H2) | | reflexivity].
  revert H2. apply has_optional, has_language.
Qed.
Lemma sn_disposition t a : G_disposition t a -> sn t.
Proof. intros []. is_sn. Qed.
Lemma has_single_ext : has G_single_ext single_ext_numbers.
Proof.
  intros t a [t' l u e H1 H2]. unfold single_ext_numbers. cbn [se_tail].
  eapply shows_cat; [apply shows_none | exact (sn_optional _ _ _ sn_disposition H2) | | reflexivity].
  revert H2. apply has_optional, has_disposition.
Qed.
Lemma has_multi_ext : has G_multi_ext multi_ext_numbers.
Proof.
  intros t a [t' l u e H1 H2]. unfold multi_ext_numbers. cbn [me_tail].
  eapply shows_cat; [apply shows_none | exact (sn_optional _ _ _ sn_disposition H2) | | reflexivity].
  revert H2. apply has_optional, has_disposition.
Qed.
Lemma has_sx : has (optional (after (bs " ") G_single_ext)) (opt_numbers single_ext_numbers).
Proof. apply has_optional, has_after; [reflexivity | apply has_single_ext]. Qed.
Lemma sn_sx t o : optional (after (bs " ") G_single_ext) t o -> sn t.
Proof. apply sn_optional. intros ? ? W. exact (sn_after (bs " ") _ _ _ eq_refl W). Qed.
Lemma has_mx : has (optional (after (bs " ") G_multi_ext)) (opt_numbers multi_ext_numbers).
Proof. apply has_optional, has_after; [reflexivity | apply has_multi_ext]. Qed.
Lemma sn_mx t o : optional (after (bs " ") G_multi_ext) t o -> sn t.
Proof. apply sn_optional. intros ? ? W. exact (sn_after (bs " ") _ _ _ eq_refl W). Qed.
Hint Extern 1 (shows _ _) => (eapply has_sx; eassumption) : num.
Hint Extern 1 (shows _ _) => (eapply has_mx; eassumption) : num.
Hint Resolve sn_sx sn_mx : num.
Lemma sn_body d t b : G_body d t b -> sn t.
Proof. intros []; is_sn. Qed.
Lemma has_body b : forall d t, G_body d t b -> shows t (structure_numbers b).
Proof.
  induction b as [f ty s x | f s n x | f e c n x IH | l s x IH] using body_ind'; intros d t H; inversion H; subst; cbn [structure_numbers].
  - shw; list_eq.
  - shw; list_eq.
  - match goal with W : G_body 5 _ _ |- _ => pose proof (IH _ _ W) end. shw; list_eq.
  - match goal with W : at_least _ _ ?t _ |- _ => destruct W as [W _];
      assert (shows t (flat_map structure_numbers l)) as Hl end.
    { clear H. match goal with W : many _ _ _ |- _ => revert W end. clear - IH. intros W.
      enough (shows t0 (flat_map structure_numbers l) /\ sn t0) by tauto.
      induction W as [| t a u l Ha Hl IHl]; cbn [flat_map]; [split; [apply shows_none | is_sn] |].
      inversion_clear IH as [| ? ? H1 H2]. destruct (IHl H2) as [B S].
      split; [| apply sn_app; [exact (sn_body _ _ _ Ha) | exact S]].
      eapply shows_cat; [exact (H1 _ _ Ha) | exact S | exact B | reflexivity]. }
    shw; list_eq.
Qed.

(** ** Responses *)
Hint Extern 1 (shows _ _) => (eapply has_body; eassumption) : num.
Lemma has_origin : has G_origin (fun n => [u32 n]).
Proof. leaf. Qed.
Lemma sn_origin t n : G_origin t n -> sn t.
Proof. intros []. is_sn. Qed.
Lemma sn_opt_origin t s : optional G_origin t s -> sn t.
Proof. apply sn_optional, sn_origin. Qed.
Hint Extern 1 (shows _ _) => (eapply (has_optional _ _ has_origin); eassumption) : num.
Hint Extern 1 (shows _ _) => (eapply (has_parens _ _ has_nz64); eassumption) : num.
Hint Resolve sn_opt_origin : num.
Lemma has_msg_att : has G_msg_att fetched_numbers.
Proof. intros t a []; cbn [fetched_numbers]; try apply shows_none; shw; list_eq. Qed.
Lemma has_quota_get : has G_quota_get quota_get_numbers.
Proof.
  intros t a [tr r s1 tu u s2 tl l H1 S1 H2 S2 H3]. unfold quota_get_numbers. cbn [qg_usage qg_limit].
  assert (forall s, G_quota_space s -> s <> [] /\ Forall (eq bSP) s) as W.
  { intros s [-> | [_ [N A]]]; [split; [discriminate | repeat constructor] | now split]. }
  assert (forall s, G_quota_space s -> sn s) as Ws.
  { intros s H. destruct (W s H) as [N A]. destruct A as [| b s E _]; [contradiction |]. subst b. now apply (snb_sn [bSP]). }
  assert (forall s, G_quota_space s -> en s) as We.
  { intros s H (v & c & E & D). destruct (W s H) as [_ A]. subst s. apply Forall_app in A as [_ A]. inversion A; subst.
    revert D. now apply digitb_false. }
  assert (sn (s1 ++ tu ++ s2 ++ tl)) as X1.
  { destruct (W s1 S1) as [N A]. destruct A as [| b s E _]; [contradiction |]. subst b. now apply (snb_sn [bSP]). }
  assert (sn (s2 ++ tl)) as X2.
  { destruct (W s2 S2) as [N A]. destruct A as [| b s E _]; [contradiction |]. subst b. now apply (snb_sn [bSP]). }
  eapply shows_cat; [apply shows_none | exact X1 | | reflexivity].
  apply shows_pre; [now apply We |]. eapply shows_cat; [apply has_u64; eassumption | exact X2 | | reflexivity].
  apply shows_pre; [now apply We |]. now apply has_u64.
Qed.
Lemma sn_thread d t a : G_thread d t a -> sn t.
Proof. intros []; is_sn. Qed.
Lemma has_nzs t l : sep_by (bs " ") G_nz_number t l -> shows t (map nz32 l).
Proof. intros H. rewrite <- flat_map_single. now apply (has_sep_by (bs " ") _ _ eq_refl eq_refl has_nz32). Qed.
Hint Extern 1 (shows _ _) => (eapply has_nzs; eassumption) : num.
Lemma has_threads_of d l : Forall (fun a => forall d t, G_thread d t a -> shows t (thread_numbers a)) l ->
  forall t n, at_least n (G_thread d) t l -> shows t (flat_map thread_numbers l).
Proof.
  intros IH t n [W _]. enough (shows t (flat_map thread_numbers l) /\ sn t) by tauto.
  induction W as [| t a u l Ha Hl IHl]; cbn [flat_map]; [split; [apply shows_none | is_sn] |].
  inversion_clear IH as [| ? ? H1 H2]. destruct (IHl H2) as [B S].
  split; [| apply sn_app; [exact (sn_thread _ _ _ Ha) | exact S]].
  eapply shows_cat; [exact (H1 _ _ Ha) | exact S | exact B | reflexivity].
Qed.
Lemma has_thread a : forall d t, G_thread d t a -> shows t (thread_numbers a).
Proof.
  induction a as [p | p l IH | l IH] using thread_ind'; intros d t H; inversion H; subst; cbn [thread_numbers].
  - shw; list_eq.
  - match goal with W : at_least _ _ _ _ |- _ => pose proof (has_threads_of _ _ IH _ _ W) end. shw; list_eq.
  - match goal with W : at_least _ _ _ _ |- _ => pose proof (has_threads_of _ _ IH _ _ W) end. shw; list_eq.
Qed.
Lemma has_threads n d : has (at_least n (G_thread d)) (flat_map thread_numbers).
Proof. apply has_at_least; [apply sn_thread | intros t a; apply has_thread]. Qed.
Hint Extern 1 (shows _ _) => (eapply has_threads; eassumption) : num.
Lemma has_modseq_result : has G_modseq_result (opt_numbers (fun n => [nz64 n])).
Proof. leaf. Qed.
Lemma sn_modseq_result t o : G_modseq_result t o -> sn t.
Proof. intros []; is_sn. Qed.
Hint Extern 1 (shows _ _) => (eapply has_modseq_result; eassumption) : num.
Lemma sn_stray b z : stray_space b z -> sn z.
Proof. intros [-> | [_ ->]]; is_sn. Qed.
Lemma has_after_nzs t l : many (after (bs " ") G_nz_number) t l -> shows t (map nz32 l).
Proof.
  intros H. rewrite <- flat_map_single. revert H. apply has_many; [intros ? ? W; exact (sn_after (bs " ") _ _ _ eq_refl W) |].
  apply has_after; [reflexivity | apply has_nz32].
Qed.
Lemma sn_after_nzs t l : many (after (bs " ") G_nz_number) t l -> sn t.
Proof. intros [| ? ? ? ? [] _]; rewrite <- ?app_assoc; is_sn. Qed.
Hint Extern 1 (shows _ _) => (eapply has_after_nzs; eassumption) : num.
Hint Resolve sn_modseq_result sn_stray sn_after_nzs sn_parens : num.
Lemma has_uid_element : has G_uid_element uid_element_numbers.
Proof. leaf. Qed.
Lemma has_uid_set : has G_uid_set uid_set_numbers.
Proof. apply has_sep_by; [reflexivity | reflexivity | apply has_uid_element]. Qed.
Hint Extern 1 (shows _ _) => (eapply has_uid_set; eassumption) : num.
Hint Extern 1 (shows _ _) => (eapply (has_parens _ _ (has_list_of (bs " ") _ _ eq_refl eq_refl has_status_val)); eassumption) : num.
Hint Extern 1 (shows _ _) => (eapply (has_parens _ _ (has_sep_by (bs " ") _ _ eq_refl eq_refl has_msg_att)); eassumption) : num.
Hint Extern 1 (shows _ _) => (eapply (has_parens _ _ (has_sep_by (bs " ") _ _ eq_refl eq_refl has_quota_get)); eassumption) : num.
Lemma has_data : has G_data data_numbers.
Proof.
  intros t d []; cbn [data_numbers]; try apply shows_none; try (shw; list_eq; fail).
  - destruct H as (? & ? & ? & ? & ? & ? & ? & ? & ? & ? & ? & ? & ->). apply shows_none.
  - destruct H as (? & ? & ? & ? & ? & ? & ? & ? & ? & ? & ? & ? & ->). apply shows_none.
Qed.
Lemma has_code : has G_known_code resp_code_numbers.
Proof.
  intros t c []; cbn [resp_code_numbers]; try apply shows_none; try (shw; list_eq; fail).
  - revert H. apply word_none. unfold code_words, when. destruct ext_condstore_qresync, ext_metadata; repeat constructor.
  - inversion H as [k' s a' I E]; subst; clear H. unfold Grammar.code_numbers, when in I.
    destruct ext_condstore_qresync, ext_metadata; cbn in I; repeat destruct I as [I | I]; try contradiction; inversion I; subst; clear I;
      cbn [resp_code_numbers]; shw.
Qed.
Lemma has_resp_text : has G_resp_text (fun p => opt_numbers resp_code_numbers (fst p)).
Proof.
  intros t p [t' H N | t' c u x H T | t' u x H T N]; cbn [fst opt_numbers resp_code_numbers]; try apply shows_none.
  pose proof (has_code _ _ H). shw; list_eq.
Qed.
Lemma sn_eol e : eol e -> sn e.
Proof. intros [-> | [_ ->]]; [now apply (snb_sn [bCR; bLF] []) | now apply (snb_sn [bLF] [])]. Qed.
Hint Resolve sn_eol : num.
Lemma has_greeting : has G_greeting greeting_numbers.
Proof.
  intros t g [k kind t' c x e W H E]. unfold greeting_numbers. cbn [gr_code].
  apply shows_pre; [is_en |]. apply shows_pre.
  - destruct W as [k s kind I S]. cbn in I. repeat destruct I as [I | I]; try contradiction; injection I as <- <-; is_en.
  - apply shows_suf; [exact (has_resp_text _ _ H) | is_sn].
Qed.
Lemma has_status_body : has G_status_body (fun b => opt_numbers resp_code_numbers (sb_code b)).
Proof.
  intros t b [k kind t' c x W H]. cbn [sb_code]. apply shows_pre.
  - destruct W as [k s kind I S]. cbn in I. repeat destruct I as [I | I]; try contradiction; injection I as <- <-; is_en.
  - exact (has_resp_text _ _ H).
Qed.
Lemma has_response : has G_response response_numbers.
Proof.
  intros t r []; cbn [response_numbers]; try apply shows_none;
    try (match goal with H : G_resp_text _ _ |- _ => pose proof (has_resp_text _ _ H) as R; cbn [fst] in R end);
    try (match goal with H : G_status_body _ _ |- _ => pose proof (has_status_body _ _ H) as R end);
    try (match goal with H : G_data _ _ |- _ => pose proof (has_data _ _ H) as R end); try (shw; list_eq; fail).
Qed.
End Numbers.

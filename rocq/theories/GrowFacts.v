(** Every rule of the grammar makes a value that is written with at most a third more bytes than its
    text has; some rules need a few bytes more, others leave some. *)

From Verif Require Import Bytes BytesFacts Dec Features Nom Types Utf8 Conv Base64 Date SeqSet EncodeCtx Encode EncodeFacts
  QuotedFacts RtFacts ValueSpec ValueFacts Grammar ValidFacts SizeSpec SizeFacts GrowSeq.
Open Scope nat_scope.

(** [grows L e d k]: what [e] writes is at most a third longer than the text of [L]; three bytes
    out are four bytes in, and [d] is missing at most, or [k] is to spare. *)
Class grows {A} (L : lang A) (e : A -> list op) (d k : nat) : Prop :=
  grow : forall t a, L t a -> k + 3 * wl (e a) <= d + 4 * length t.

#[local] Hint Rewrite wl_app wl_B wl_W wl_nil : wl.
#[local] Hint Rewrite app_length : lens.
Ltac written := unfold e_opt_list, e_tail, e_pair, e_bytes, joinsp in *; cbn beta iota in *; unfold paren, spc in *; cbn beta iota in *;
  autorewrite with wl in *.
Ltac grown := repeat match goal with
  | H : same_letters ?k (bs ?s) |- _ =>
    let L := fresh "len" in pose proof (same_letters_length _ _ H) as L; clear H;
    let n := eval vm_compute in (length (bs s)) in change (length (bs s)) with n in L
  | H : ?L ?t ?a |- _ =>
    let E := fresh "grow" in pose proof (grow (L := L) t a H) as E; clear H
  end.
Ltac lens := autorewrite with lens in *; cbn [length] in *; repeat match goal with
  | |- context [length (bs ?s)] =>
    let n := eval vm_compute in (length (bs s)) in change (length (bs s)) with n
  | H : context [length (bs ?s)] |- _ =>
    let n := eval vm_compute in (length (bs s)) in change (length (bs s)) with n in H
  end.
Ltac ok := grown; written; lens; lia.

(** ** Lists *)
Lemma join_cons {A} sep (e : A -> list op) a l : l <> [] -> join sep e (a :: l) = e a ++ sep ++ join sep e l.
Proof. destruct l; [contradiction | reflexivity]. Qed.
Lemma sep_by_ne {A} s (L : lang A) t l : sep_by s L t l -> l <> [].
Proof. intros []; discriminate. Qed.
Lemma sep_grows {A} s o (L : lang A) e k l : wl o = length s ->
  Forall (fun a => forall t, L t a -> k + 3 * wl (e a) <= 4 * length t) l ->
  forall t, sep_by s L t l -> k + 3 * wl (join o e l) <= 4 * length t.
Proof.
  intros Ho H t S. induction S as [t a Ha | t a u l Ha Hl IH]; inversion_clear H as [| ? ? H1 H2].
  - cbn [join]. auto.
  - rewrite join_cons by (eapply sep_by_ne; eassumption). specialize (IH H2). specialize (H1 _ Ha).
    written. lens. lia.
Qed.
Lemma many_grows {A} (L : lang A) e k l :
  Forall (fun a => forall t, L t a -> k + 3 * wl (e a) <= 4 * length t) l ->
  forall t, many L t l -> k * length l + 3 * wl (flat_map e l) <= 4 * length t.
Proof.
  intros H t S. induction S as [| t a u l Ha Hl IH]; [cbn; lia |]. inversion_clear H as [| ? ? H1 H2].
  cbn [flat_map length]. specialize (IH H2). specialize (H1 _ Ha). written. lens. lia.
Qed.
Lemma all_grow {A} (L : lang A) e k : grows L e 0 k -> forall l, Forall (fun a => forall t, L t a -> k + 3 * wl (e a) <= 4 * length t) l.
Proof. intros H l. apply Forall_forall. intros a _ t. apply H. Qed.
#[local] Instance grows_sep_sp {A} (L : lang A) e k : grows L e 0 k -> grows (sep_by (bs " ") L) (join spc e) 0 k.
Proof. intros H t l. apply sep_grows; [reflexivity | exact (all_grow L e k H l)]. Qed.
#[local] Instance grows_sep_dot {A} (L : lang A) e k : grows L e 0 k -> grows (sep_by (bs ".") L) (join (W (bs ".")) e) 0 k.
Proof. intros H t l. apply sep_grows; [reflexivity | exact (all_grow L e k H l)]. Qed.
#[local] Instance grows_sep_comma {A} (L : lang A) e k : grows L e 0 k -> grows (sep_by (bs ",") L) (join (W (bs ",")) e) 0 k.
Proof. intros H t l. apply sep_grows; [reflexivity | exact (all_grow L e k H l)]. Qed.
#[local] Instance grows_list_of {A} (L : lang A) e k : grows L e 0 k -> grows (list_of (bs " ") L) (join spc e) 0 0.
Proof. intros H t l [| t' l' S]; [cbn; lia |]. pose proof (grows_sep_sp L e k H _ _ S). lia. Qed.
#[local] Instance grows_many {A} (L : lang A) e k : grows L e 0 k -> grows (many L) (flat_map e) 0 0.
Proof. intros H t l S. apply (many_grows L e k l (all_grow L e k H l)) in S. lia. Qed.
#[local] Instance grows_at_least {A} n (L : lang A) e k : grows L e 0 k -> grows (at_least (S n) L) (flat_map e) 0 k.
Proof.
  intros H t l [S N]. apply (many_grows L e k l (all_grow L e k H l)) in S. destruct l; cbn [length] in *; lia.
Qed.
#[local] Instance grows_optional {A} (L : lang A) e d k : grows L e d k -> grows (optional L) (e_opt e) d 0.
Proof. intros H t o [| t' a Ha]; cbn [e_opt]; [cbn; lia |]. specialize (H _ _ Ha). lia. Qed.
#[local] Instance grows_after {A} (L : lang A) e d k : grows L e d k ->
  grows (after (bs " ") L) (fun a => spc ++ e a) d (S k).
Proof. intros H t a [t' a' Ha]. specialize (H _ _ Ha). written. lens. lia. Qed.
#[local] Instance grows_parens {A} (L : lang A) e d k : grows L e d k -> grows (in_parens L) (fun a => paren (e a)) d (2 + k).
Proof. intros H t a [t' a' Ha]. specialize (H _ _ Ha). written. lens. lia. Qed.
#[local] Instance grows_opt_list {A} (L : lang A) e k : grows L e 0 k -> grows (opt_list L) (e_opt_list e) 0 0.
Proof.
  intros H t a [| t' l Hl]; [cbn; lia |]. destruct Hl as [t' l' Hl]. pose proof (sep_by_ne _ _ _ _ Hl) as N.
  pose proof (grow _ _ Hl) as G. destruct l'; [contradiction |]. written. lens. lia.
Qed.
#[local] Instance grows_condstore {A} {F : features} (L : lang A) e k : grows L e 0 k -> grows (condstore_list L) (e_opt_list e) 0 0.
Proof. intros H t a [[-> ->] | [_ H']]; [cbn; lia | exact (grow t a H')]. Qed.
Lemma grows_word {A} k (table : list (bytes * A)) (e : A -> list op) :
  Forall (fun p => k + 3 * wl (e (snd p)) <= 4 * length (fst p)) table -> grows (word table) e 0 k.
Proof.
  intros H t a [t' s a' I E]. rewrite Forall_forall in H. specialize (H _ I). cbn [fst snd] in H.
  rewrite (same_letters_length _ _ E). lia.
Qed.
Lemma grows_name {A} (table : list (bytes * A)) other (e : A -> list op) d :
  Forall (fun p => 1 + 3 * wl (e (snd p)) <= 3 * d + 4 * length (fst p)) table ->
  (forall s, wl (e (other s)) <= d + length s) -> grows (name table other) e (3 * d) 1.
Proof.
  intros H Ho t a [t' s a' I E | t' [N _] _].
  - rewrite Forall_forall in H. specialize (H _ I). cbn [fst snd] in H. rewrite (same_letters_length _ _ E). lia.
  - specialize (Ho t'). destruct t'; [contradiction | cbn [length] in *; lia].
Qed.
Ltac by_table := first [apply grows_word | apply (grows_name _ _ _ 0); [| intros s; unfold wl; cbn; rewrite ?map_length; try (change (flat_map dump_op (map B s)) with (dump (W s)); rewrite dump_W); lia]];
  unfold flag_table, flag_name_table, month_table, auth_table, resource_table, sort_algorithm_table,
    thread_table, enable_table, capability_table, attribute_flag_table, entry_type_table, search_words,
    status_att_table, fetch_words, macro_table, depth_table, sort_key_table, command_words, code_words,
    greeting_table, status_table;
  rows; cbn; lia.

Section Grow.
Context {F : features}.

(** ** Tokens *)
#[local] Instance grows_num m : grows (G_num m) e_num 0 1.
Proof. intros t n H. apply number_wl in H. lia. Qed.
#[local] Instance grows_nz m : grows (G_nz m) e_num 0 1.
Proof. intros t n [H _]. exact (grow t n H). Qed.
#[local] Instance grows_number : grows G_number e_num 0 1.
Proof. apply grows_num. Qed.
#[local] Instance grows_number64 : grows G_number64 e_num 0 1.
Proof. apply grows_num. Qed.
#[local] Instance grows_nz_number : grows G_nz_number e_num 0 1.
Proof. apply grows_nz. Qed.
#[local] Instance grows_nz_number64 : grows G_nz_number64 e_num 0 1.
Proof. apply grows_nz. Qed.
Lemma some_grows P t : some_of P t -> 1 + 3 * wl (W t) <= 4 * length t.
Proof. intros N. apply some_length in N. rewrite wl_W. lia. Qed.
#[local] Instance grows_tag : grows G_tag e_bytes 0 1.
Proof. intros t a [N ->]. exact (some_grows _ _ N). Qed.
Lemma escape_length w s : quoted_body w s -> length (escape_quoted s) = length w.
Proof.
  rewrite escape_quoted_flat. induction 1 as [| b w s N H IH | b w s N H IH]; [reflexivity | |];
    cbn [flat_map]; rewrite app_length, IH; clear IH; unfold esc_char, quoted_specials in *.
  - assert (E : is_quoted_specials b = false); [| now rewrite E].
    apply not_true_is_false. intros X. apply N. unfold is_quoted_specials in X. apply orb_true_iff in X as [X | X];
      apply beq_eq in X as ->; vm_compute; auto.
  - assert (E : is_quoted_specials b = true); [| now rewrite E].
    unfold is_quoted_specials. destruct N as [N | N]; [change 0x22%N with (bN bDQ) in N | change 0x5C%N with (bN bBS) in N];
      apply bN_inj in N as ->; reflexivity.
Qed.
#[local] Instance grows_quoted : grows G_quoted e_quoted 0 2.
Proof. intros t a [w s H _]. apply escape_length in H. unfold e_quoted. written. lens. lia. Qed.
Lemma eol_length e : eol e -> 1 <= length e <= 2.
Proof. intros [-> | [_ ->]]; cbn; lia. Qed.
Lemma mode_length m mode : G_lit_mode m mode -> length (match mode with Sync => [] | NonSync => ["+"%byte] end) = length m.
Proof. intros []; reflexivity. Qed.
Lemma lit_header_length is8 mode d m n e s : G_num u32_max d n -> G_lit_mode m mode -> eol e ->
  1 + 3 * wl [Lit is8 mode s] <= 12 + 3 * (if is8 then 1 else 0) + 4 * length d + 3 * length m + 3 * length s \/ n <> lenN s.
Proof.
  intros H M E. destruct (N.eq_dec n (lenN s)) as [-> | N]; [left | now right].
  apply number_wl in H. unfold e_num in H. rewrite wl_W in H. apply mode_length in M.
  unfold wl. cbn [dump flat_map dump_op]. unfold lit_header. destruct is8; rewrite ?app_nil_r, ?app_length; cbn [length];
    rewrite ?app_length; cbn [length app] in *; lia.
Qed.
#[local] Instance grows_literal : grows G_literal e_literal 0 1.
Proof.
  intros t a [d m mode e s H M E _]. cbn [e_literal lit_mode_of lit_data].
  destruct (lit_header_length false mode d m (lenN s) e s H M E) as [X | X]; [| contradiction].
  apply eol_length in E. unfold e_literal. cbn [lit_mode_of lit_data]. lens. lia.
Qed.
#[local] Instance grows_literal8 : grows G_literal8 e_literal8 0 1.
Proof.
  intros t a [d m mode e s H M E]. cbn [e_literal8 lit8_mode_of lit8_data].
  destruct (lit_header_length true mode d m (lenN s) e s H M E) as [X | X]; [| contradiction].
  apply eol_length in E. unfold e_literal8. cbn [lit8_mode_of lit8_data]. lens. lia.
Qed.
#[local] Instance grows_string : grows G_string e_istring 0 1.
Proof.
  intros t a [t' s H | w s _ H _ _ | t' l H]; cbn [e_istring]; [ok | | ok].
  apply escape_length in H. unfold e_quoted. written. lens. lia.
Qed.
#[local] Instance grows_nstring : grows G_nstring e_nstring 0 1.
Proof. intros t a [t' s H | t' H]; unfold G_nil in *; cbn [e_nstring]; ok. Qed.
#[local] Instance grows_astring : grows G_astring e_astring 0 1.
Proof. intros t a [t' H | t' s H]; cbn [e_astring]; [exact (some_grows _ _ H) | ok]. Qed.
#[local] Instance grows_nstring8 : grows G_nstring8 e_nstring8 0 1.
Proof. intros t a [t' s H | t' s H]; cbn [e_nstring8]; ok. Qed.
#[local] Instance grows_charset : grows G_charset e_charset 0 1.
Proof. intros t a [t' H | t' s H]; cbn [e_charset]; [exact (some_grows _ _ H) | ok]. Qed.
Lemma base64_length p t : base64 p t -> length (b64_encode p) = length t.
Proof. intros H. f_equal. exact (base64_inj p t H _ (base64_encode p)). Qed.
#[local] Instance grows_base64 : grows G_base64 (fun p => W (b64_encode p)) 0 0.
Proof. intros t p H. apply base64_length in H. written. lia. Qed.
#[local] Instance grows_quoted_char : grows G_quoted_char (fun c => B bDQ :: e_quoted_char c ++ [B bDQ]) 0 1.
Proof.
  intros t a [b w _ H]. apply escape_length in H. rewrite escape_quoted_flat in H. cbn [flat_map] in H.
  rewrite app_nil_r in H. unfold esc_char, is_quoted_specials in H. unfold e_quoted_char. written. lens.
  destruct (beq b bBS) eqn:E1; [apply beq_eq in E1 as -> | destruct (beq b bDQ) eqn:E2; [apply beq_eq in E2 as -> |]];
    written; cbn in *; lia.
Qed.

(** ** Sequences, mailboxes, flags, names *)
#[local] Instance grows_set : grows G_sequence_set e_sequence_set 0 1.
Proof. intros t a H. apply sequence_set_wl in H. lia. Qed.
#[local] Instance grows_mailbox : grows G_mailbox e_mailbox 0 1.
Proof.
  intros t m [t' a m' H E]. destruct E as [[-> E] | [-> _]]; cbn [e_mailbox]; [| ok].
  apply same_letters_length in E. change (length (bs "INBOX")) with 5 in E.
  assert (L : length (bytes_of_astring a) <= length t').
  { pose proof (fits_astring t' a H) as X. destruct a as [| s]; [| destruct s; try match goal with l : literal_t |- _ => destruct l end]; unfold astring_size, istring_size, bytes_of_astring, bytes_of_istring in *; cbn in X |- *; lia. }
  written. lens. lia.
Qed.
#[local] Instance grows_list_mailbox : grows G_list_mailbox e_list_mailbox 0 1.
Proof. intros t a [t' H | t' s H]; cbn [e_list_mailbox]; [exact (some_grows _ _ H) | ok]. Qed.
#[local] Instance grows_flag : grows G_flag e_flag 0 1.
Proof.
  intros t a [t' f H | t' H]; [| exact (some_grows _ _ H)].
  assert (X : grows (name flag_table FExtension) e_flag (3 * 1) 1).
  { apply grows_name; [| intros s; unfold e_flag; rewrite wl_W; apply le_n]. unfold flag_table. rows; cbn; lia. }
  specialize (X _ _ H). lens. lia.
Qed.
#[local] Instance grows_flag_list : grows G_flag_list (fun l => paren (join spc e_flag l)) 0 2.
Proof. intros t a H. unfold G_flag_list in H. ok. Qed.
#[local] Instance grows_flag_fetch : grows G_flag_fetch e_flag_fetch 0 1.
Proof. intros t a [t' H | t' f H _]; cbn [e_flag_fetch]; ok. Qed.
#[local] Instance grows_flag_perm : grows G_flag_perm e_flag_perm 0 1.
Proof. intros t a [| t' f H]; cbn [e_flag_perm]; ok. Qed.
#[local] Instance grows_flag_name : grows G_flag_name e_flag_name 0 1.
Proof.
  intros t a [t' f H].
  assert (X : grows (name flag_name_table FNExtension) e_flag_name (3 * 1) 1).
  { apply grows_name; [| intros s; unfold e_flag_name; rewrite wl_W; apply le_n]. unfold flag_name_table. rows; cbn; lia. }
  specialize (X _ _ H). lens. lia.
Qed.
Lemma month_length m : length (month_str m) = 3.
Proof. unfold month_str. repeat match goal with |- context [match ?x with _ => _ end] => destruct x end; reflexivity. Qed.
Lemma month_text t m : word month_table t m -> length t = 3.
Proof.
  intros [t' s a I E]. apply same_letters_length in E. rewrite E. cbn [month_table In] in I.
  repeat destruct I as [I | I]; try contradiction; injection I as <- _; reflexivity.
Qed.
Lemma format_date_length d : length (format_date d) = 11.
Proof. unfold format_date. lens. rewrite month_length. reflexivity. Qed.
#[local] Instance grows_date : grows G_date e_date 0 1.
Proof.
  assert (X : forall t d, G_date_text t d -> 10 <= length t).
  { intros t d [k td dd tm m ty y K [Ld _] M [Ly _] _]. apply month_text in M. cbn [In] in K. lens. lia. }
  intros t a [t' d H | t' d H]; apply X in H; unfold e_date; written; rewrite format_date_length; lens; lia.
Qed.
#[local] Instance grows_date_time : grows G_date_time e_date_time 0 1.
Proof.
  intros t a [td d tm m ty y th h ti i ts s tz z Hd M [Ly _] [Lh _] [Li _] [Ls _] Hz _].
  assert (Ld : length td = 2) by (destruct Hd as [t' d [L _] | t' d [L _]]; lens; lia).
  assert (Lz : length tz = 5) by (destruct Hz as [th' h' tm' m' [L1 _] [L2 _] | th' h' tm' m' [L1 _] [L2 _]]; lens; lia).
  apply month_text in M. unfold e_date_time, format_date_time. written. lens. rewrite format_date_length.
  assert (length (format_zone z) = 5).
  { unfold format_zone. destruct (Z.ltb z 0); reflexivity. }
  cbn [dt_offset]. cbn [dec2 length] in *. lia.
Qed.
Ltac by_name := first [apply grows_word | apply (grows_name _ _ _ 0); [| intros s; change (wl (W s) <= 0 + length s); rewrite wl_W; apply le_n]];
  unfold auth_table, resource_table, sort_algorithm_table,
    thread_table, enable_table, capability_table, entry_type_table, search_words,
    status_att_table, fetch_words, macro_table, depth_table, sort_key_table, command_words, code_words,
    greeting_table, status_table;
  rows; cbn; lia.
#[local] Instance grows_auth : grows G_auth_type (fun m => W (auth_mechanism_str m)) 0 1.
Proof. by_name. Qed.
#[local] Instance grows_resource : grows G_resource e_resource 0 1.
Proof. by_name. Qed.
#[local] Instance grows_sort_alg : grows (name sort_algorithm_table SAOther) (fun a => W (sort_algorithm_str a)) 0 1.
Proof. by_name. Qed.
#[local] Instance grows_thread_alg : grows G_thread_alg e_threading_algorithm 0 1.
Proof. by_name. Qed.
#[local] Instance grows_enable : grows G_enable_name e_capability_enable 0 1.
Proof. by_name. Qed.
#[local] Instance grows_capability_word : grows (word capability_table) e_capability 0 1.
Proof. by_name. Qed.
#[local] Instance grows_known_capability : grows G_known_capability e_capability 0 1.
Proof.
  intros t a []; try (ok; fail); unfold e_capability; cbn [capability_str];
    unfold e_resource, e_threading_algorithm, compression_str in *; try (ok; fail).
  - grown. unfold e_threading_algorithm in *. written. lens. lia.
  - match goal with H : same_letters ?t ?u, G : G_resource ?u _ |- _ =>
    apply same_letters_length in H; apply grow in G end.
    grown. unfold e_resource in *. written. lens. lia.
Qed.
#[local] Instance grows_capability : grows G_capability e_capability 0 1.
Proof. intros t a [t' c H | t' H _]; [ok | exact (some_grows _ _ H)]. Qed.
#[local] Instance grows_attr : grows G_attr_flag (fun f => W (attribute_flag_str f)) 0 1.
Proof.
  intros t a [t' f H | t' H]; [| exact (some_grows _ _ H)].
  assert (X : grows (name attribute_flag_table AFExtension) (fun f => W (attribute_flag_str f)) (3 * 2) 1).
  { apply grows_name; [| intros s; rewrite wl_W; apply le_n]. unfold attribute_flag_table. rows; cbn; lia. }
  specialize (X _ _ H). lens. lia.
Qed.
#[local] Instance grows_entry_type : grows (word entry_type_table) (fun t => W (entry_type_req_str t)) 0 1.
Proof. by_name. Qed.
Definition e_modseq_ext (p : attribute_flag * entry_type_req) : list op :=
  let (f, t) := p in
  W (bs " " ++ [bDQ] ++ bs "/flags/" ++ attribute_flag_str f ++ [bDQ]) ++ W (bs " " ++ entry_type_req_str t).
#[local] Instance grows_modseq_ext : grows G_modseq_ext e_modseq_ext 0 1.
Proof. intros t a []. unfold e_modseq_ext. ok. Qed.

(** ** Search keys *)
#[local] Instance grows_search_word : grows (word search_words) e_search_key 0 1.
Proof. by_name. Qed.
Lemma search_astring_wl k f s : word search_astring k f -> wl (e_search_key (f s)) = length k + 1 + wl (e_astring s).
Proof.
  intros [t' n a' I E]. apply same_letters_length in E. rewrite E. cbn [search_astring In] in I.
  repeat destruct I as [I | I]; try contradiction; injection I as <- <-; cbn [e_search_key]; written; lens; lia.
Qed.
Lemma search_date_wl k f s : word search_date k f -> wl (e_search_key (f s)) = length k + 1 + wl (e_date s).
Proof.
  intros [t' n a' I E]. apply same_letters_length in E. rewrite E. cbn [search_date In] in I.
  repeat destruct I as [I | I]; try contradiction; injection I as <- <-; cbn [e_search_key]; written; lens; lia.
Qed.
Definition key_grows (k : search_key) : Prop := forall t, G_search_key t k -> 1 + 3 * wl (e_search_key k) <= 4 * length t.
Definition sub_key_grows (k : search_key) : Prop :=
  match k with
  | KAnd l => Forall key_grows l | KNot k => key_grows k | KOr a b => key_grows a /\ key_grows b | _ => True
  end.
Lemma key_grow_step t k : G_search_key t k -> sub_key_grows k -> 1 + 3 * wl (e_search_key k) <= 4 * length t.
Proof.
  intros H IH. destruct H; cbn [sub_key_grows] in IH; try (cbn [e_search_key]; ok; fail).
  - match goal with H : word search_astring _ _ |- _ => apply (search_astring_wl _ _ s) in H end. ok.
  - match goal with H : word search_date _ _ |- _ => apply (search_date_wl _ _ d) in H end. ok.
  - match goal with H : G_search_key _ _ |- _ => apply IH in H end. cbn [e_search_key]. ok.
  - destruct IH as [IH1 IH2]. cbn [e_search_key].
    match goal with H : G_search_key _ a, H' : G_search_key _ b |- _ => apply IH1 in H; apply IH2 in H' end. ok.
  - cbn [e_search_key]. match goal with |- context [?x ++ spc ++ e_num n] => change x with (e_opt e_modseq_ext eo) end. ok.
  - match goal with H : in_parens _ _ _ |- _ => destruct H end. cbn [e_search_key].
    match goal with H : sep_by _ _ _ _ |- _ => apply (sep_grows (bs " ") spc G_search_key e_search_key 1 _ eq_refl IH) in H end. ok.
Qed.
#[local] Instance grows_search_key : grows G_search_key e_search_key 0 1.
Proof.
  intros t k. revert t. induction k as [l IH | k IH | k1 k2 IH1 IH2 | k Hk] using key_ind'; intros t H;
    apply (key_grow_step t _ H); cbn; auto. destruct k; cbn; auto; contradiction.
Qed.
#[local] Instance grows_search_keys : grows G_search_keys (join spc e_search_key) 0 1.
Proof. intros t l [t' l' H _]. ok. Qed.

(** ** Parts of commands *)
#[local] Instance grows_status_att : grows (word status_att_table) e_status_name 0 1.
Proof. by_name. Qed.
#[local] Instance grows_status_val : grows G_status_val e_status_item 0 1.
Proof.
  intros t a [k L f t' n W H]. inversion W as [k' s a' I E]; subst; clear W.
  apply same_letters_length in E. unfold status_val_table, when in I.
  assert (X : 1 <= wl (e_num n) <= length t').
  { assert (Y : exists m, G_num m t' n).
    { destruct ext_condstore_qresync; cbn [In app] in I; repeat destruct I as [I | I]; try contradiction;
        injection I as _ <- _; first [eexists; exact H | destruct H as [H _]; eexists; exact H]. }
    destruct Y as [m Y]. exact (number_wl m _ _ Y). }
  destruct ext_condstore_qresync; cbn [In app] in I; repeat destruct I as [I | I]; try contradiction;
    injection I as <- _ <-; cbn [e_status_item]; written; lens; lia.
Qed.
#[local] Instance grows_part : grows G_part e_part 0 1.
Proof. intros t a H. unfold G_part in H. unfold e_part. ok. Qed.
#[local] Instance grows_header_list : grows G_header_list (fun l => paren (join spc e_astring l)) 0 2.
Proof. intros t a H. unfold G_header_list in H. ok. Qed.
#[local] Instance grows_part_dot : grows G_part_dot e_part_dot 0 0.
Proof. intros t a []; cbn [e_part_dot]; ok. Qed.
#[local] Instance grows_section_spec : grows G_section_spec e_section 0 1.
Proof. intros t a []; cbn [e_section]; ok. Qed.
#[local] Instance grows_section : grows G_section (fun s => W (bs "[") ++ e_opt e_section s ++ W (bs "]")) 0 2.
Proof. intros t a []; ok. Qed.
#[local] Instance grows_section_binary : grows G_section_binary (fun s => W (bs "[") ++ e_part s ++ W (bs "]")) 0 2.
Proof. intros t a []; [cbn; lia | ok]. Qed.
#[local] Instance grows_partial : grows G_partial e_partial 0 1.
Proof. intros t a []; unfold e_partial; cbn [fst snd]; ok. Qed.
#[local] Instance grows_fetch_word : grows (word fetch_words) e_item_name 0 1.
Proof. by_name. Qed.
#[local] Instance grows_fetch_att : grows G_fetch_att e_item_name 0 1.
Proof. intros t a []; cbn [e_item_name]; ok. Qed.
#[local] Instance grows_macro : grows (word macro_table) e_macro 0 1.
Proof. by_name. Qed.
#[local] Instance grows_items : grows G_macro_or_items e_macro_or_items 0 1.
Proof.
  intros t a [t' m H | t' i H | t' l H]; [cbn [e_macro_or_items]; ok | cbn [e_macro_or_items]; ok |].
  destruct l as [| i [| j l]]; cbn [e_macro_or_items]; [ok | | ok].
  grown. cbn [join] in *. written. lia.
Qed.
#[local] Instance grows_id_param : grows G_id_param (e_pair e_istring e_nstring) 0 1.
Proof. intros t a []; unfold e_pair; cbn [fst snd]; ok. Qed.
#[local] Instance grows_id_params : grows G_id_params e_id_params 1 0.
Proof.
  intros t a [t' H | t' l e H _]; unfold G_nil in *; cbn [e_id_params]; [ok |].
  destruct l as [| p l]; [destruct quirk_id_empty_to_nil; written; lens; lia |]. ok.
Qed.
#[local] Instance grows_entry_value : grows G_entry_value e_entry_value 0 1.
Proof. intros t a []; unfold e_entry_value; cbn [ev_entry ev_value]; ok. Qed.
#[local] Instance grows_entry_values : grows G_entry_values (fun l => paren (join spc e_entry_value l)) 0 2.
Proof. intros t a H. unfold G_entry_values in H. ok. Qed.
#[local] Instance grows_depth : grows (word depth_table) e_depth 0 1.
Proof. by_name. Qed.
#[local] Instance grows_gm_option : grows G_getmetadata_option e_get_metadata_option 0 1.
Proof. intros t a [k t' n K H | k t' d K H]; cbn [e_get_metadata_option]; ok. Qed.
Definition e_entries (l : list astring) : list op :=
  match l with [x] => e_astring x | _ => paren (joinsp e_astring l) end.
#[local] Instance grows_entries : grows G_entries e_entries 0 1.
Proof.
  intros t a [t' e H | t' l H]; [cbn [e_entries]; ok |].
  destruct l as [| x [| y l]]; cbn [e_entries]; [ok | | ok]. grown. cbn [join] in *. written. lia.
Qed.
#[local] Instance grows_quota_set : grows G_quota_set e_quota_set 0 1.
Proof. intros t a []; unfold e_quota_set; cbn [qs_resource qs_limit]; ok. Qed.
#[local] Instance grows_sort_key : grows (word sort_key_table) (fun k => W (sort_key_str k)) 0 1.
Proof. by_name. Qed.
#[local] Instance grows_sort_criterion : grows G_sort_criterion e_sort_criterion 0 1.
Proof. intros t a []; unfold e_sort_criterion; cbn [so_reverse so_key]; ok. Qed.
#[local] Instance grows_known_uids : grows G_known_uids (fun p => paren (e_sequence_set (fst p) ++ spc ++ e_sequence_set (snd p))) 0 1.
Proof. intros t a []; cbn [fst snd]; ok. Qed.
#[local] Instance grows_select_param : grows G_select_param e_select_parameter 0 1.
Proof. intros t a []; cbn [e_select_parameter]; ok. Qed.
#[local] Instance grows_fetch_modifier : grows G_fetch_modifier e_fetch_modifier 0 1.
Proof. intros t a []; cbn [e_fetch_modifier]; ok. Qed.
#[local] Instance grows_store_modifier : grows G_store_modifier e_store_modifier 0 1.
Proof. intros t a []; cbn [e_store_modifier]; ok. Qed.
#[local] Instance grows_store_flags : grows G_store_flags (fun l => paren (join spc e_flag l)) 6 1.
Proof. intros t a []; ok. Qed.
#[local] Instance grows_message : grows G_message e_lit_or_lit8 0 1.
Proof. intros t a []; cbn [e_lit_or_lit8]; ok. Qed.
#[local] Instance grows_opt_flags : grows G_opt_flags (e_opt_list e_flag) 0 0.
Proof.
  intros t a [[-> ->] | H]; [cbn; lia |]. destruct H as [t l H]. destruct l; [cbn; lia |]. ok.
Qed.
#[local] Instance grows_uid : grows G_uid e_uid 0 0.
Proof. intros t a []; cbn [e_uid]; ok. Qed.

(** ** Commands *)
#[local] Instance grows_command_word : grows (word command_words) e_command_body 0 1.
Proof. by_name. Qed.
Lemma command_mailbox_wl k f m : word command_mailbox k f -> wl (e_command_body (f m)) = length k + wl (e_mailbox m).
Proof.
  intros [t' n a' I E]. apply same_letters_length in E. rewrite E. cbn [command_mailbox In] in I.
  repeat destruct I as [I | I]; try contradiction; injection I as <- <-; cbn [e_command_body]; written; lens; lia.
Qed.
Lemma store_list_wl {A} (e : A -> list op) l :
  wl (match l with [] => [] | _ => paren (joinsp e l) ++ spc end) = wl (e_opt_list e l).
Proof. destruct l; [reflexivity |]. cbn [e_opt_list]. written. lia. Qed.
#[local] Instance grows_command_body : grows G_command_body e_command_body 0 1.
Proof.
  intros t a H. destruct H; try (cbn [e_command_body]; ok; fail).
  - match goal with H : word command_mailbox _ _ |- _ => apply (command_mailbox_wl _ _ m) in H end. ok.
  - cbn [e_command_body]. unfold e_compression, compression_str. ok.
  - cbn [e_command_body]. change (match l with [x] => e_astring x | _ => paren (joinsp e_astring l) end) with (e_entries l). ok.
  - cbn [e_command_body].
    match goal with H : _ \/ _ |- _ => destruct H as [H | [-> ->]] end; [| ok].
    destruct p as [| b p]; ok.
  - cbn [e_command_body].
    match goal with H : G_store_type _ _ |- _ => destruct H end; match goal with H : G_silent _ _ |- _ => destruct H end;
      rewrite !wl_app, store_list_wl; ok.
  - cbn [e_command_body e_opt]. ok.
  - cbn [e_command_body e_opt]. ok.
Qed.
Lemma command_grows t c : G_command t c -> 3 * wl (e_command c) <= 4 * length t.
Proof.
  intros []. unfold e_command, e_crlf. cbn [cmd_tag cmd_body].
  match goal with H : eol _ |- _ => apply eol_length in H end. ok.
Qed.
Lemma authenticate_data_grows t a : G_authenticate_data t a -> 3 * wl (e_authenticate_data a) <= 2 + 4 * length t.
Proof.
  intros []; cbn [e_authenticate_data]; unfold e_crlf; match goal with H : eol _ |- _ => apply eol_length in H end; ok.
Qed.
Lemma idle_done_grows t a : G_idle_done t a -> 3 * wl e_idle_done <= 4 * length t.
Proof.
  intros []. unfold e_idle_done, e_crlf. match goal with H : eol _ |- _ => apply eol_length in H end. ok.
Qed.

(** ** Envelopes, body structures *)
Lemma join_nil {A} (e : A -> list op) l : join [] e l = flat_map e l.
Proof.
  induction l as [| a l IH]; [reflexivity |]. cbn [flat_map]. rewrite <- IH. destruct l; [cbn; now rewrite app_nil_r | reflexivity].
Qed.
#[local] Instance grows_address : grows G_address e_address 0 1.
Proof.
  intros t a [z ta a' tb b tc c td d _ H1 H2 H3 H4]. unfold e_address. cbn [ad_name ad_adl ad_mailbox ad_host]. ok.
Qed.
#[local] Instance grows_addresses : grows G_addresses e_addresses 0 1.
Proof.
  intros t a [t' H | t' l H]; unfold G_nil in *; unfold e_addresses; [cbn [list1_or_nil]; ok |].
  destruct l as [| x l]; cbn [list1_or_nil].
  - inversion H as [u l' [_ N]]; subst. cbn in N. lia.
  - rewrite join_nil. ok.
Qed.
#[local] Instance grows_envelope : grows G_envelope e_envelope 0 2.
Proof.
  intros t a []. unfold e_envelope.
  cbn [env_date env_subject env_from env_sender env_reply_to env_to env_cc env_bcc env_in_reply_to env_message_id]. ok.
Qed.
#[local] Instance grows_pair : grows G_pair (e_pair e_istring e_istring) 0 1.
Proof. intros t a []; unfold e_pair; cbn [fst snd]; ok. Qed.
#[local] Instance grows_params : grows G_body_params e_params 1 0.
Proof.
  intros t a [t' H | t' l H]; unfold G_nil in *; unfold e_params; [cbn [list1_or_nil]; ok |].
  destruct l; cbn [list1_or_nil]; [grown; cbn [join] in *; written; lens; lia | ok].
Qed.
#[local] Instance grows_enc : grows G_body_enc e_istring 0 1.
Proof. intros t a [t' s H | t' _ H]; unfold G_nil in *; [ok |]. grown. cbn. lia. Qed.
#[local] Instance grows_octets : grows G_octets e_num 0 1.
Proof. intros t a [t' n H | t' n _ H]; [ok |]. grown. lens. change (wl (e_num 0)) with 1. lia. Qed.
#[local] Instance grows_fields : grows G_body_fields e_basic 0 7.
Proof.
  intros t a []. unfold e_basic. cbn [bf_params bf_id bf_description bf_encoding bf_size]. ok.
Qed.
#[local] Instance grows_extension d : grows (G_body_extension d) e_body_extension 0 1.
Proof.
  intros t e. revert d t. induction e as [n | n | l IH] using be_ind'; intros d t H; inversion H; subst;
    cbn [e_body_extension]; try (ok; fail).
  match goal with H : in_parens _ _ _ |- _ => destruct H as [t' l' H'] end.
  apply (sep_grows _ spc _ e_body_extension 1 _ eq_refl) in H'; [written; lens; lia |].
  eapply Forall_impl; [| exact IH]. cbn. intros a Ha u Hu. exact (Ha _ _ Hu).
Qed.
Definition e_dsp (d : option (istring * list (istring * istring))) : list op :=
  match d with Some (s, p) => paren (e_istring s ++ spc ++ e_params p) | None => W (bs "NIL") end.
#[local] Instance grows_dsp : grows G_body_dsp e_dsp 0 3.
Proof. intros t a []; unfold G_nil in *; cbn [e_dsp]; ok. Qed.
#[local] Instance grows_lang : grows G_body_lang (list1_or_nil spc e_istring) 5 0.
Proof.
  intros t a [t' H | t' s H | t' l H]; unfold G_nil in *; cbn [list1_or_nil join]; [ok | ok |].
  destruct l; cbn [list1_or_nil]; [grown; cbn [join] in *; written; lens; lia | ok].
Qed.
#[local] Instance grows_location : grows G_location (fun l => spc ++ e_location l) 0 2.
Proof. intros t a []. unfold e_location. cbn [loc_location loc_extensions]. ok. Qed.
#[local] Instance grows_language : grows G_language (fun l => spc ++ e_language l) 4 0.
Proof. intros t a []. unfold e_language. cbn [lang_language lang_tail]. ok. Qed.
#[local] Instance grows_disposition : grows G_disposition (fun d => spc ++ e_disposition d) 0 0.
Proof.
  intros t a []. unfold e_disposition. cbn [disp_disposition disp_tail].
  match goal with |- context [?x ++ e_tail e_language _] => change x with (e_dsp l) end. ok.
Qed.
#[local] Instance grows_single_ext : grows G_single_ext e_single_ext 0 1.
Proof. intros t a []. unfold e_single_ext. cbn [se_md5 se_tail]. ok. Qed.
#[local] Instance grows_multi_ext : grows G_multi_ext e_multi_ext 1 0.
Proof. intros t a []. unfold e_multi_ext. cbn [me_params me_tail]. ok. Qed.
#[local] Instance grows_body d : grows (G_body d) e_body 0 2.
Proof.
  intros t b. revert d t.
  induction b as [f ty s x | f s n x | f e c n x IH | l s x IH] using body_ind'; intros d t H; inversion H; subst;
    cbn [e_body].
  - ok.
  - ok.
  - match goal with H : G_body 5 _ _ |- _ => apply IH in H end. ok.
  - match goal with H : at_least _ _ _ _ |- _ => destruct H as [H _]; apply (many_grows _ e_body 2) in H end.
    + ok.
    + eapply Forall_impl; [| exact IH]. cbn. intros a Ha u Hu. exact (Ha _ _ Hu).
Qed.
#[local] Instance grows_origin : grows G_origin (fun o => W (bs "<") ++ e_num o ++ W (bs ">")) 0 1.
Proof. intros t a []. ok. Qed.
#[local] Instance grows_msg_att : grows G_msg_att e_message_data_item 0 1.
Proof. intros t a H. destruct H; cbn [e_message_data_item]; ok. Qed.

(** ** Data *)
#[local] Instance grows_delimiter : grows G_delimiter e_delimiter 0 1.
Proof. intros t a [t' b H | t' H]; unfold G_nil in *; cbn [e_delimiter]; ok. Qed.
#[local] Instance grows_ns_ext : grows G_namespace_ext e_namespace_ext 0 2.
Proof. intros t a []; unfold e_namespace_ext; cbn [ne_key ne_values]; ok. Qed.
#[local] Instance grows_ns_descr : grows G_namespace_descr e_namespace 0 2.
Proof. intros t a []; unfold e_namespace; cbn [ns_prefix ns_delimiter ns_extensions]; ok. Qed.
#[local] Instance grows_namespace : grows G_namespace e_namespaces 0 1.
Proof.
  intros t a [t' H | t' l H]; unfold G_nil in *; [cbn [e_namespaces]; ok |].
  destruct l as [| x l]; cbn [e_namespaces]; [| ok].
  inversion H as [u l' [_ N]]; subst. cbn in N. lia.
Qed.
#[local] Instance grows_quota_get : grows G_quota_get e_quota_get 0 1.
Proof.
  assert (X : forall t, G_quota_space t -> 1 <= length t).
  { intros t [-> | [_ N]]; [reflexivity |]. exact (some_length _ _ N). }
  intros t a []; unfold e_quota_get; cbn [qg_resource qg_usage qg_limit].
  repeat match goal with H : G_quota_space _ |- _ => apply X in H end. ok.
Qed.
#[local] Instance grows_thread d : grows (G_thread d) e_thread 0 2.
Proof.
  intros t a. revert d t. induction a as [p | p l IH | l IH] using thread_ind'; intros d t H; inversion H; subst;
    cbn [e_thread].
  - ok.
  - match goal with H : at_least _ _ _ _ |- _ => destruct H as [H _]; apply (many_grows _ e_thread 2) in H end.
    + ok.
    + eapply Forall_impl; [| exact IH]. cbn. intros a Ha v Hv. exact (Ha _ _ Hv).
  - match goal with H : at_least _ _ _ _ |- _ => destruct H as [H _]; apply (many_grows _ e_thread 2) in H end.
    + ok.
    + eapply Forall_impl; [| exact IH]. cbn. intros a Ha v Hv. exact (Ha _ _ Hv).
Qed.
#[local] Instance grows_capabilities : grows G_capabilities (fun l => W (bs "CAPABILITY ") ++ joinsp e_capability l) 0 1.
Proof. intros t a [k t' l z K H _]; ok. Qed.
#[local] Instance grows_uid_element : grows G_uid_element e_uid_element 0 1.
Proof. intros t a []; cbn [e_uid_element]; ok. Qed.
#[local] Instance grows_uid_set : grows G_uid_set e_uid_set 0 1.
Proof. intros t a H. unfold G_uid_set in H. unfold e_uid_set. ok. Qed.
Lemma nums_flat l : e_nums l = flat_map (fun n => spc ++ e_num n) l.
Proof.
  induction l as [| n l IH]; [reflexivity |]. cbn [flat_map]. rewrite <- IH. unfold e_nums, joinsp.
  destruct l; [cbn [join]; now rewrite !app_nil_r |]. rewrite join_cons by discriminate. now rewrite <- !app_assoc.
Qed.
#[local] Instance grows_nums : grows (many (after (bs " ") G_nz_number)) e_nums 0 0.
Proof. intros t l H. rewrite nums_flat. ok. Qed.
#[local] Instance grows_modseq_result : grows G_modseq_result e_modseq 0 0.
Proof. intros t a []; unfold e_modseq; cbn [e_opt]; ok. Qed.
Lemma data_grows t a : G_data t a -> 1 + 3 * wl (e_data a) <= 12 + 4 * length t.
Proof.
  intros H. destruct H; try (unfold e_data, e_metadata_response, e_crlf; cbn beta iota; ok; fail).
  - destruct H as (k' & tf & fl & td & de & tm & m & K & H1 & H0 & H2 & -> & ->). unfold e_data, e_crlf; cbn beta iota. ok.
  - destruct H as (k' & tf & fl & td & de & tm & m & K & H1 & H0 & H2 & -> & ->). unfold e_data, e_crlf; cbn beta iota. ok.
  - unfold e_data, e_crlf; cbn beta iota. destruct l; [written; lens; grown; lia | ok].
Qed.

(** ** Codes and texts *)
#[local] Instance grows_code_word : grows (word code_words) e_code 0 1.
Proof. by_name. Qed.
#[local] Instance grows_known_code : grows G_known_code e_code 0 1.
Proof.
  intros t a H. destruct H as [t c H | k L f t n W H | k t l K H | | | | |]; try (cbn [e_code]; ok; fail).
  - inversion W as [k' s a' I E]; subst; clear W.
    apply same_letters_length in E. unfold code_numbers, when in I.
    assert (X : 1 <= wl (e_num n) <= length t).
    { assert (Y : exists m, G_num m t n).
      { destruct ext_condstore_qresync, ext_metadata; cbn [In app] in I; repeat destruct I as [I | I]; try contradiction;
          injection I as _ <- _; first [eexists; exact H | destruct H as [H _]; eexists; exact H]. }
      destruct Y as [m Y]. exact (number_wl m _ _ Y). }
    destruct ext_condstore_qresync, ext_metadata; cbn [In app] in I; repeat destruct I as [I | I]; try contradiction;
      injection I as <- _ <-; cbn [e_code e_metadata_code]; written; lens; lia.
  - destruct l as [| c l]; cbn [e_code]; [grown; cbn [join] in *; written; lens; lia | ok].
Qed.
Lemma resp_text_grows t c x : G_resp_text t (c, x) -> 3 * wl (e_code_text c x) <= 10 + 4 * length t.
Proof.
  intros H. unfold e_code_text. inversion H; subst; cbn [e_opt].
  - written. lia.
  - match goal with H : G_text_after_code _ _ |- _ => destruct H end; ok.
  - cbn [e_code]. match goal with H : G_text_after_code _ _ |- _ => destruct H end; written; lens; lia.
Qed.
Ltac texts := repeat match goal with
  | H : G_resp_text _ (_, _) |- _ => apply resp_text_grows in H
  | H : eol _ |- _ => apply eol_length in H
  end.
#[local] Instance grows_greeting_word : grows (word greeting_table) (fun k => e_greeting_kind k ++ spc) 0 3.
Proof. by_name. Qed.
Lemma greeting_grows t g : G_greeting t g -> 3 * wl (e_greeting g) <= 7 + 4 * length t.
Proof. intros []. unfold e_greeting, e_crlf. cbn [gr_kind gr_code gr_text]. texts. ok. Qed.
#[local] Instance grows_status_word : grows (word status_table) (fun k => e_status_kind k ++ spc) 0 3.
Proof. by_name. Qed.
Lemma response_grows t r : G_response t r -> 3 * wl (e_response r) <= 13 + 4 * length t.
Proof.
  intros []; unfold e_response, e_continuation, e_status, e_crlf; cbn beta iota;
    try match goal with H : G_status_body _ _ |- _ => destruct H; cbn [sb_kind sb_code sb_text] end;
    try match goal with H : G_data _ _ |- _ => apply data_grows in H end; unfold e_crlf; texts; try (ok; fail).
Qed.
End Grow.

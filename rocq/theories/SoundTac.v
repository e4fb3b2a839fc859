(** Soundness of parsers for a language: everything a parser reads belongs to the language. *)

From Verif Require Import Bytes BytesFacts Features Nom Types Utf8 ParseCore ParserFacts ValueSpec
  ValueFacts Grammar.
Open Scope nat_scope.

Definition sound {A} (p : parser A) (L : lang A) : Prop :=
  forall i r a, p i = ROk r a -> exists t, i = t ++ r /\ L t a.

Section Sound.
Context {F : features}.

Lemma sound_use {A} (p : parser A) (L : lang A) i r a :
  p i = ROk r a -> sound p L -> exists t, i = t ++ r /\ L t a.
Proof. intros H S. exact (S _ _ _ H). Qed.
Lemma sound_weaken {A} (p : parser A) (L M : lang A) :
  sound p L -> (forall t a, L t a -> M t a) -> sound p M.
Proof. intros S H i r a E. apply S in E as (t & -> & G). eauto. Qed.

Lemma kw_inv t i r u : tag_no_case t i = ROk r u -> exists k, i = k ++ r /\ same_letters k t.
Proof.
  revert i. induction t as [| c t IH]; cbn; intros i.
  - intros [= -> _]. exists []. split; [reflexivity | constructor].
  - destruct i as [| x i]; [discriminate |].
    destruct (beq_spec (lower x) (lower c)) as [E |]; [| discriminate].
    intros H. apply IH in H as (k & -> & K). exists (x :: k). split; [reflexivity |].
    constructor; [now apply same_letter_spec | assumption].
Qed.
Lemma eol_inv i r u : crlf i = ROk r u -> exists e, i = e ++ r /\ eol e.
Proof. exact (crlf_inv i r u). Qed.
Lemma expect_inv {A B} (p : parser A) (f : A -> option B) i r b :
  expect p f i = ROk r b -> exists a, p i = ROk r a /\ f a = Some b.
Proof.
  intros H. apply bind_inv in H as (r1 & a & E & H). destruct (f a) eqn:X; [| discriminate].
  inv H. eauto.
Qed.
Lemma map_res_inv {A B} (p : parser A) (f : A -> option B) i r b :
  map_res p f i = ROk r b -> exists a, p i = ROk r a /\ f a = Some b.
Proof.
  intros H. apply bind_inv in H as (r1 & a & E & H). destruct (f a) eqn:X; [| discriminate].
  inv H. eauto.
Qed.
Lemma value_inv {A B} (p : parser A) (v : B) i r b :
  value v p i = ROk r b -> exists a, p i = ROk r a /\ b = v.
Proof. intros H. apply bind_inv in H as (r1 & a & E & H). inv H. eauto. Qed.
Lemma vecn_inv {A} n (p : parser (list A)) i r l : vecn n p i = ROk r l -> p i = ROk r l.
Proof.
  intros H. apply expect_inv in H as (a & H & E). destruct (Nat.leb n (length a)); [| discriminate].
  now inv E.
Qed.
Lemma gate_inv {A} b (p : parser A) i r a : gate b p i = ROk r a -> b = true /\ p i = ROk r a.
Proof. destruct b; [auto | discriminate]. Qed.
Lemma alt_inv {A} (p : parser A) ps i r a : alt (p :: ps) i = ROk r a ->
  p i = ROk r a \/ (p i = RErr /\ alt ps i = ROk r a).
Proof. rewrite alt_cons. apply orp_inv. Qed.
Lemma alt_nil_inv {A} i r (a : A) : alt [] i = ROk r a -> False.
Proof. discriminate. Qed.
Lemma validated_inv ok f i r s : validated ok (take_while1 f) i = ROk r s ->
  i = s ++ r /\ ok s = true /\ utf8_ok s = true.
Proof.
  intros H. apply expect_inv in H as (a & H & E). unfold str_of in E.
  destruct (utf8_ok a) eqn:U; [| discriminate]. destruct (ok a) eqn:O; [| discriminate].
  inv E. apply take_while1_inv in H as (-> & _). auto.
Qed.

(** Loops *)
Lemma sound_many0 {A} (p : parser A) L : sound p L -> sound (many0 p) (many L).
Proof.
  intros S i r a. unfold many0. generalize (Datatypes.S (length i)) as n. intros n. revert i r a.
  induction n as [| n IH]; intros i r a; [discriminate |]. cbn [many0_f].
  destruct (p i) as [r1 x | | | |] eqn:E; try discriminate.
  - destruct (Nat.ltb _ _); [| discriminate].
    destruct (many0_f n p r1) as [r2 l | | | |] eqn:E2; try discriminate. intros [= <- <-].
    apply S in E as (t & -> & H). apply IH in E2 as (u & -> & G).
    exists (t ++ u). rewrite app_assoc. split; [reflexivity | now constructor].
  - intros [= <- <-]. exists []. split; [reflexivity | constructor].
Qed.
Lemma sound_many1 {A} (p : parser A) L : sound p L -> sound (many1 p) (at_least 1 L).
Proof.
  intros S i r a H. apply bind_inv in H as (r1 & x & E & H).
  apply bind_inv in H as (r2 & l & E2 & H). inv H.
  apply S in E as (t & -> & H). apply (sound_many0 p L S) in E2 as (u & -> & G).
  exists (t ++ u). rewrite app_assoc. repeat split; [now constructor | cbn; lia].
Qed.
Lemma sound_many_m {A} m (p : parser A) L : sound p L -> sound (many_m m p) (at_least m L).
Proof.
  intros S. induction m as [| m IH]; intros i r a H; cbn [many_m] in H.
  - apply (sound_many0 p L S) in H as (u & -> & G). exists u. repeat split; [assumption | lia].
  - destruct (p i) as [r1 x | | | |] eqn:E; try discriminate.
    destruct (Nat.ltb _ _); [| discriminate].
    destruct (many_m m p r1) as [r2 l | | | |] eqn:E2; try discriminate. inv H.
    apply S in E as (t & -> & H). apply IH in E2 as (u & -> & G & LL).
    exists (t ++ u). rewrite app_assoc. repeat split; [now constructor | cbn; lia].
Qed.
Definition reads {A} (p : parser A) (s : bytes) : Prop := forall i r a, p i = ROk r a -> i = s ++ r.
Lemma sound_loop {A B} (p : parser A) L (sep : parser B) s : sound p L -> reads sep s ->
  sound (sep_loop sep p) (many (after s L)).
Proof.
  intros S R i r a. unfold sep_loop. generalize (Datatypes.S (length i)) as n. intros n. revert i r a.
  induction n as [| n IH]; intros i r a; [discriminate |]. cbn [sep_loop_f].
  assert (N : forall r' a' , ROk i [] = ROk r' a' -> exists t, i = t ++ r' /\ many (after s L) t a')
    by (intros ? ? [= <- <-]; exists []; split; [reflexivity | constructor]).
  destruct (sep i) as [r1 x | | | |] eqn:E; try discriminate; [| apply N].
  destruct (Nat.ltb _ _); [| discriminate].
  destruct (p r1) as [r2 y | | | |] eqn:E2; try discriminate; [| apply N].
  destruct (Nat.leb _ _); [| discriminate].
  destruct (sep_loop_f n sep p r2) as [r3 l | | | |] eqn:E3; try discriminate. intros [= <- <-].
  apply R in E as ->. apply S in E2 as (t & -> & H). apply IH in E3 as (u & -> & G).
  exists ((s ++ t) ++ u). rewrite <- !app_assoc. split; [reflexivity |]. rewrite app_assoc.
  constructor; [now constructor | assumption].
Qed.
Lemma sep_by_many {A} s (L : lang A) t a u l : L t a -> many (after s L) u l ->
  sep_by s L (t ++ u) (a :: l).
Proof.
  intros H M. revert t a H. induction M as [| v b u l Hb M IH]; intros t a H.
  - rewrite app_nil_r. now constructor.
  - inversion Hb as [w b' G]. subst. rewrite <- app_assoc. constructor; auto.
Qed.
Lemma sound_sep1 {A B} (p : parser A) L (sep : parser B) s : sound p L -> reads sep s ->
  sound (sep_list1 sep p) (sep_by s L).
Proof.
  intros S R i r a H. apply bind_inv in H as (r1 & x & E & H).
  apply bind_inv in H as (r2 & l & E2 & H). inv H.
  apply S in E as (t & -> & H). apply (sound_loop p L sep s S R) in E2 as (u & -> & G).
  exists (t ++ u). rewrite app_assoc. split; [reflexivity | now apply sep_by_many].
Qed.
Lemma sound_sep0 {A B} (p : parser A) L (sep : parser B) s : sound p L -> reads sep s ->
  sound (sep_list0 sep p) (list_of s L).
Proof.
  intros S R i r a H. unfold sep_list0 in H. destruct (p i) as [r1 x | | | |] eqn:E; try discriminate.
  - destruct (sep_loop sep p r1) as [r2 l | | | |] eqn:E2; try discriminate. inv H.
    apply S in E as (t & -> & H). apply (sound_loop p L sep s S R) in E2 as (u & -> & G).
    exists (t ++ u). rewrite app_assoc. split; [reflexivity |]. constructor. now apply sep_by_many.
  - inv H. exists []. split; [reflexivity | constructor].
Qed.
Lemma reads_tag s : reads (tag s) s.
Proof. intros i r a. apply tag_inv. Qed.
Lemma reads_char c : reads (char c) [c].
Proof. intros i r a H. now apply char_inv in H as [-> _]. Qed.
Lemma reads_sp : reads sp (bs " ").
Proof. apply (reads_char bSP). Qed.

(** Combinators that stand for rules *)
Lemma sound_opt {A} (p : parser A) L : sound p L -> sound (opt p) (optional L).
Proof.
  intros S i r o H. apply opt_inv in H as [(a & -> & H) | (-> & -> & _)].
  - apply S in H as (t & -> & H). exists t. split; [reflexivity | now constructor].
  - exists []. split; [reflexivity | constructor].
Qed.
Lemma sound_after {A B} (q : parser B) s (p : parser A) L : reads q s -> sound p L ->
  sound (q ;;; p) (after s L).
Proof.
  intros R S i r o H. apply bind_inv in H as (r1 & x & E & H). apply R in E as ->.
  apply S in H as (t & -> & H). exists (s ++ t). rewrite app_assoc.
  split; [reflexivity | now constructor].
Qed.
Lemma sound_parens {A B C} (o : parser B) (p : parser A) (c : parser C) L :
  reads o (bs "(") -> reads c (bs ")") -> sound p L -> sound (delimited o p c) (in_parens L).
Proof.
  intros Ro Rc S i r a H. apply bind_inv in H as (r1 & x & E & H). apply Ro in E as ->.
  apply bind_inv in H as (r2 & b & E & H). apply S in E as (t & -> & G).
  apply bind_inv in H as (r3 & y & E & H). apply Rc in E as ->. inv H.
  eexists. split; [| constructor; exact G]. rewrite <- !app_assoc. reflexivity.
Qed.
Lemma sound_vecn {A} n (p : parser (list A)) L : sound p L -> sound (vecn n p) L.
Proof. intros S i r a H. now apply vecn_inv, S in H. Qed.
(** [opt (" (" 1*p ")")] *)
Lemma sound_opt_parens {A C} (p : parser A) (c : parser C) L : sound p L -> reads c (bs ")") ->
  sound (pmap dflt (opt (delimited (tg " (") (sep_list1 sp p) c))) (opt_list L).
Proof.
  intros S Rc i r a H. apply pmap_inv in H as (o & H & ->).
  apply opt_inv in H as [(l & -> & H) | (-> & -> & _)].
  - apply bind_inv in H as (r1 & x & E & H). apply tag_inv in E as ->.
    apply bind_inv in H as (r2 & b & E & H).
    apply (sound_sep1 p L sp (bs " ") S reads_sp) in E as (t & -> & G).
    apply bind_inv in H as (r3 & y & E & H). apply Rc in E as ->. inv H.
    exists (bs " " ++ bs "(" ++ t ++ bs ")"). split; [now rewrite <- !app_assoc |].
    now repeat constructor.
  - exists []. split; [reflexivity | constructor].
Qed.
(** A list of alternatives *)
Lemma sound_alt {A} (ps : list (parser A)) L : Forall (fun p => sound p L) ps -> sound (alt ps) L.
Proof.
  induction 1 as [| p ps H _ IH]; intros i r a E; [now apply alt_nil_inv in E |].
  apply alt_inv in E as [E | [_ E]]; auto.
Qed.
End Sound.

#[export] Hint Resolve reads_tag reads_char reads_sp : reads.
#[export] Hint Extern 1 (reads (tag _) _) => apply reads_tag : reads.
#[export] Hint Extern 1 (reads (char _) _) => apply reads_char : reads.
#[export] Hint Extern 1 (reads sp _) => apply reads_sp : reads.

(** [sound p ?L] for compound [p] *)
Create HintDb soundb.
Ltac s_step :=
  lazymatch goal with
  | |- reads _ _ => solve [eauto with reads nocore]
  | |- sound _ _ =>
    first
    [ solve [eauto with soundb nocore]
    | lazymatch goal with
      | |- sound (many0 _) _ => eapply sound_many0
      | |- sound (many1 _) _ => eapply sound_many1
      | |- sound (many_m _ _) _ => eapply sound_many_m
      | |- sound (sep_list1 _ _) _ => eapply sound_sep1
      | |- sound (sep_list0 _ _) _ => eapply sound_sep0
      | |- sound (vecn _ _) _ => eapply sound_vecn
      | |- sound (vec1 _) _ => eapply sound_vecn
      | |- sound (vec2 _) _ => eapply sound_vecn
      | |- sound (delimited _ _ _) _ => eapply sound_parens
      | |- sound (pmap dflt (opt (delimited _ _ _))) _ => eapply sound_opt_parens
      | |- sound (opt _) _ => eapply sound_opt
      | |- sound (bind _ (fun _ => _)) _ => eapply sound_after
      end ]
  end.
Ltac s_auto := solve [repeat s_step].

(** Invert [p i = ROk r a] hypotheses. *)
Ltac sd1 :=
  match goal with
  | H : ret _ _ = ROk _ _ |- _ => unfold ret in H
  | H : ROk _ _ = ROk _ _ |- _ => injection H; clear H; intros; subst
  | H : RErr = ROk _ _ |- _ => discriminate H
  | H : RInc = ROk _ _ |- _ => discriminate H
  | H : RPanic = ROk _ _ |- _ => discriminate H
  | H : RFail _ = ROk _ _ |- _ => discriminate H
  | H : perr _ = ROk _ _ |- _ => discriminate H
  | H : pfail _ = ROk _ _ |- _ => discriminate H
  | H : tag _ _ = ROk _ _ |- _ => apply tag_inv in H; subst
  | H : tag_no_case _ _ = ROk _ _ |- _ =>
    let k := fresh "k" in let K := fresh "K" in apply kw_inv in H as (k & H & K); subst
  | H : sp _ = ROk _ _ |- _ => apply reads_sp in H; subst
  | H : char _ _ = ROk _ _ |- _ => apply reads_char in H; subst
  | H : dquote _ = ROk _ _ |- _ => apply (reads_char bDQ) in H; subst
  | H : crlf _ = ROk _ _ |- _ =>
    let e := fresh "e" in let K := fresh "E" in apply eol_inv in H as (e & H & K); subst
  | H : ?p ?i = ROk ?r ?a |- _ =>
    let t := fresh "t" in let G := fresh "G" in
    apply sound_use with (1 := H) in H; [| assumption]; destruct H as (t & H & G); subst
  | H : ?p ?i = ROk ?r ?a |- _ =>
    let t := fresh "t" in let G := fresh "G" in
    eapply sound_use in H; [| s_auto]; destruct H as (t & H & G); subst
  | H : gate _ _ _ = ROk _ _ |- _ =>
    let g := fresh "Gate" in apply gate_inv in H as [g H]
  | H : pmap _ _ _ = ROk _ _ |- _ => apply pmap_inv in H as (? & H & ?); subst
  | H : value _ _ _ = ROk _ _ |- _ => apply value_inv in H as (? & H & ?); subst
  | H : expect _ _ _ = ROk _ _ |- _ => apply expect_inv in H as (? & H & ?)
  | H : map_res _ _ _ = ROk _ _ |- _ => apply map_res_inv in H as (? & H & ?)
  | H : vec1 _ _ = ROk _ _ |- _ => apply vecn_inv in H
  | H : vec2 _ _ = ROk _ _ |- _ => apply vecn_inv in H
  | H : terminated _ _ _ = ROk _ _ |- _ => unfold terminated in H
  | H : delimited _ _ _ _ = ROk _ _ |- _ => unfold delimited in H
  | H : bind _ _ _ = ROk _ _ |- _ =>
    let r := fresh "r" in let a := fresh "a" in let E := fresh "E" in
    apply bind_inv in H as (r & a & E & H); cbv beta in H
  | H : opt _ _ = ROk _ _ |- _ => apply opt_inv in H as [(? & ? & H) | (? & ? & _)]; subst
  | H : alt [] _ = ROk _ _ |- _ => discriminate H
  | H : alt (_ :: _) _ = ROk _ _ |- _ => apply alt_inv in H as [H | [_ H]]
  end.
Ltac sd := repeat sd1; repeat match goal with u : unit |- _ => destruct u end.

(** [exists t, known pieces ++ r = t ++ r /\ L t a] by a rule of [L] *)
Ltac sfin c := eexists; split; [| c]; rewrite <- ?app_assoc; cbn [app]; try reflexivity.
Ltac in_table := solve [repeat first [left; reflexivity | right]].
Ltac sword := eapply word_intro; [| eassumption]; in_table.
Ltac ssplit := intros ? ? ? ?; sd.

(** The documented syntax with the marked differences (AbnfSpec.v) and the grammar (Grammar.v)
    describe the same texts. First the tools. *)

From Verif Require Import Bytes BytesFacts Features Nom Types Utf8 Conv ValueSpec ValueFacts Grammar SoundCap MoreFacts NameFacts AbnfSpec.
Open Scope N_scope.
Open Scope abnf_scope.

(** ** Nodes *)
Section Nodes.
Context {F : features} (ex li : bool).
Local Notation D := (derives ex li).
Lemma D_str s t : D (Str s) t <-> same_letters t s.
Proof. split; [now inversion 1 | now constructor]. Qed.
Lemma D_chr X t : D (Chr X) t <-> exists b, t = [b] /\ X b.
Proof. split; [inversion 1; eauto | intros (b & -> & H); now constructor]. Qed.
Lemma D_eps t : D Eps t <-> t = [].
Proof. split; [now inversion 1 | intros ->; constructor]. Qed.
Lemma D_cat a b t : D (Cat a b) t <-> exists u v, t = u ++ v /\ D a u /\ D b v.
Proof. split; [inversion 1; eauto | intros (u & v & -> & H & G); now constructor]. Qed.
Lemma D_or a b t : D (Or a b) t <-> D a t \/ D b t.
Proof. split; [inversion 1; auto | intros [H | H]; [now apply d_or_l | now apply d_or_r]]. Qed.
Lemma D_many a t : D (Many a) t <-> t = [] \/ exists u v, t = u ++ v /\ D a u /\ D (Many a) v.
Proof. split; [inversion 1; eauto 6 | intros [-> | (u & v & -> & H & G)]; now constructor]. Qed.
Lemma D_ref r t : D (Ref r) t <-> D (rules r) t.
Proof. split; [now inversion 1 | now constructor]. Qed.
Lemma D_prose P t : D (Prose P) t <-> P t.
Proof. split; [now inversion 1 | now constructor]. Qed.
Lemma D_where P a t : D (Where P a) t <-> D a t /\ P t.
Proof. split; [now inversion 1 | now constructor]. Qed.
Lemma D_feature b a t : D (Feature b a) t <-> b = true /\ D a t.
Proof. split; [now inversion 1 | now constructor]. Qed.
Lemma D_extra a t : D (Extra a) t <-> ex = true /\ D a t.
Proof. split; [now inversion 1 | now constructor]. Qed.
Lemma D_limit P a t : D (Limit P a) t <-> D a t /\ (li = true -> P t).
Proof. split; [now inversion 1 | now constructor]. Qed.
Lemma D_beyond a t : D (Beyond a) t <-> li = false /\ D a t.
Proof. split; [now inversion 1 | now constructor]. Qed.
End Nodes.

(** More deviations, more texts; fewer limits, more texts. *)
Lemma derives_mono {F : features} ex li ex' li' a t : (ex = true -> ex' = true) -> (li' = true -> li = true) ->
  derives ex li a t -> derives ex' li' a t.
Proof.
  intros E L. induction 1; try (econstructor; eauto; fail).
  apply d_beyond; [destruct li'; [now rewrite L in H | reflexivity] | assumption].
Qed.

Section Tools.
Context {F : features}.
Local Notation D := (derives true true).

Lemma D_extra_t a t : D (Extra a) t <-> D a t.
Proof. rewrite D_extra. tauto. Qed.
Lemma D_limit_t P a t : D (Limit P a) t <-> D a t /\ P t.
Proof. rewrite D_limit. tauto. Qed.
Lemma D_beyond_t a t : D (Beyond a) t <-> False.
Proof. rewrite D_beyond. split; [now intros [? _] | easy]. Qed.

(** A text without letters is spelled in one way. *)
Definition no_letter (b : byte) : bool := let n := bN b in
  negb ((0x41 <=? n) && (n <=? 0x5A)) && negb ((0x61 <=? n) && (n <=? 0x7A)).
Lemma letters_fixed s : forallb no_letter s = true -> forall t, same_letters t s <-> t = s.
Proof.
  induction s as [| b s IH]; cbn [forallb]; intros H t.
  - split; [now inversion 1 | intros ->; constructor].
  - apply andb_prop in H as [B H]. split.
    + intros G. inversion G as [| x y l l' S SL]; subst. apply IH in SL as ->; [| assumption].
      f_equal. unfold no_letter in B. apply andb_prop in B as [B1 B2]. apply negb_true_iff in B1, B2.
      apply andb_false_iff in B1, B2. rewrite !N.leb_gt in B1, B2.
      destruct S as [-> | [S | S]]; [reflexivity | lia | lia].
    + intros ->. constructor; [now left | now apply IH].
Qed.
Lemma letters_app t u s r : same_letters t s -> same_letters u r -> same_letters (t ++ u) (s ++ r).
Proof. apply Forall2_app. Qed.
Lemma letters_split t s r : same_letters t (s ++ r) -> exists u v, t = u ++ v /\ same_letters u s /\ same_letters v r.
Proof. intros H. apply Forall2_app_inv_r in H as (u & v & H & G & ->). eauto. Qed.

(** ** Repetition *)
Lemma D_some_of X t : D (some (Chr X)) t <-> some_of X t.
Proof.
  assert (M : forall t, D (Many (Chr X)) t <-> Forall X t).
  { clear t. intros t. split.
    - remember (Many (Chr X)) as a. induction 1; try discriminate; [constructor |].
      injection Heqa as ->. apply D_chr in H as (b & -> & H). constructor; auto.
    - induction 1; [constructor |]. change (x :: l) with ([x] ++ l). apply d_more; [now constructor | assumption]. }
  unfold some. rewrite D_cat. setoid_rewrite M. setoid_rewrite D_chr. unfold some_of. split.
  - intros (u & v & -> & (b & -> & B) & V). split; [discriminate | constructor; auto].
  - intros [N H]. destruct H as [| b t B H]; [easy |]. exists [b], t. eauto.
Qed.
Lemma D_many_of X t : D (Many (Chr X)) t <-> many_of X t.
Proof.
  split.
  - remember (Many (Chr X)) as a. induction 1; try discriminate; [constructor |].
    injection Heqa as ->. apply D_chr in H as (b & -> & H). constructor; auto. now apply IHderives2.
  - induction 1; [constructor |]. change (x :: l) with ([x] ++ l). apply d_more; [now constructor | assumption].
Qed.

(** [R a L]: [a] and [L] have the same texts. A class, so that a rule finds its language. *)
Class R {A} (a : abnf) (L : lang A) : Prop := spec : forall t, D a t <-> exists v, L t v.
Lemma R_ref {A} r (L : lang A) : R (rules r) L -> R (Ref r) L.
Proof. intros H t. now rewrite D_ref. Qed.
Lemma R_sep {A} a s (L : lang A) : R a L -> forallb no_letter s = true -> R (a ^ Many (Str s ^ a)) (sep_by s L).
Proof.
  intros E NL t. rewrite D_cat. split.
  - intros (u & v & -> & H & G). revert u H. remember (Many (Str s ^ a)) as m.
    induction G; try discriminate; intros w H.
    + apply E in H as [x H]. exists [x]. rewrite app_nil_r. now constructor.
    + injection Heqm as ->. apply D_cat in G1 as (p & q & -> & P & Q). apply D_str in P.
      apply (letters_fixed s NL) in P as ->. apply E in H as [x H].
      destruct (IHG2 eq_refl q Q) as [l L']. exists (x :: l). rewrite <- app_assoc. now constructor.
  - intros [l H]. induction H as [t x H | t x u l H G (u' & v' & -> & P & Q)].
    + exists t, []. rewrite app_nil_r. split; [reflexivity |]. split; [apply E; eauto | constructor].
    + exists t, ((s ++ u') ++ v'). rewrite <- !app_assoc. split; [reflexivity |]. split; [apply E; eauto |].
      rewrite app_assoc. apply d_more; [| assumption]. apply d_cat; [| assumption].
      apply D_str. now apply letters_fixed.
Qed.
(** [1*(s a)] *)
Lemma R_some_sep {A} a s (L : lang A) : R a L -> forallb no_letter s = true -> R (some (Str s ^ a)) (after s (sep_by s L)).
Proof.
  intros E NL t. unfold some. rewrite D_cat. setoid_rewrite D_cat. setoid_rewrite D_str. split.
  - intros (u & v & -> & (p & q & -> & P & Q) & V). apply (letters_fixed s NL) in P as ->.
    destruct (proj1 (R_sep a s L E NL (q ++ v))) as [l H]; [now apply d_cat |].
    exists l. rewrite <- app_assoc. now constructor.
  - intros [l H]. inversion H as [u x G]; subst. apply ex_intro in G.
    apply (R_sep a s L E NL) in G. apply D_cat in G as (p & q & -> & P & Q).
    exists (s ++ p), q. rewrite <- app_assoc. split; [reflexivity |]. split; [| assumption].
    exists s, p. repeat split; auto. now apply letters_fixed.
Qed.
Lemma R_list {A} a s (L : lang A) : R a L -> forallb no_letter s = true -> R (opt (a ^ Many (Str s ^ a))) (list_of s L).
Proof.
  intros E NL t. unfold opt. rewrite D_or, D_eps, (R_sep a s L E NL t). split.
  - intros [-> | [l H]]; [exists []; constructor | exists l; now constructor].
  - intros [l H]. inversion H; subst; eauto.
Qed.
Lemma R_opt {A} a (L : lang A) : R a L -> R (opt a) (optional L).
Proof.
  intros E t. unfold opt. rewrite D_or, D_eps, (E t). split.
  - intros [-> | [l H]]; [exists None; constructor | exists (Some l); now constructor].
  - intros [l H]. inversion H; subst; eauto.
Qed.
Lemma R_parens {A} a (L : lang A) : R a L -> R ("(" ^ a ^ ")") (in_parens L).
Proof.
  intros E t. rewrite D_cat. setoid_rewrite D_cat. setoid_rewrite D_str. split.
  - intros (u & v & -> & U & p & q & -> & P & Q). apply letters_fixed in U as ->, Q as ->; try reflexivity.
    apply E in P as [x P]. exists x. now constructor.
  - intros [x H]. inversion H as [u y G]; subst. exists (bs "("), (u ++ bs ")"). split; [reflexivity |].
    split; [now apply letters_fixed |]. exists u, (bs ")"). repeat split; [apply E; eauto | now apply letters_fixed].
Qed.
Lemma R_after {A} a s (L : lang A) : R a L -> forallb no_letter s = true -> R (Str s ^ a) (after s L).
Proof.
  intros E NL t. rewrite D_cat. setoid_rewrite D_str. split.
  - intros (u & v & -> & U & V). apply (letters_fixed s NL) in U as ->. apply E in V as [x V]. exists x. now constructor.
  - intros [x H]. inversion H; subst. exists s, t0. repeat split; [now apply letters_fixed | apply E; eauto].
Qed.
(** A table of words *)
Fixpoint words (T : list bytes) : bytes -> Prop := fun t =>
  match T with [] => False | s :: T => same_letters t s \/ words T t end.
Lemma word_words {A} (T : list (bytes * A)) t : (exists a, word T t a) <-> words (map fst T) t.
Proof.
  split.
  - intros [a H]. inversion H as [u s b I S]; subst. clear H. induction T as [| [w c] T IH]; [easy |].
    destruct I as [I | I]; [injection I as -> ->; now left | right; auto].
  - induction T as [| [w c] T IH]; [easy |]. intros [H | H].
    + exists c. apply (word_intro _ t w); [now left | assumption].
    + destruct (IH H) as [a G]. inversion G; subst. exists a. econstructor; [right; eassumption | assumption].
Qed.
(** An atom, whether its name is known or not *)
Lemma name_atom {A} (T : list (bytes * A)) other t :
  forallb (fun x => atom_ok (fst x)) T = true -> (exists a, name T other t a) <-> some_of ATOM_CHAR t.
Proof.
  intros H. split.
  - intros [a N]. inversion N as [? s ? I S |]; subst; [| assumption].
    apply (letters_atom t s S). rewrite forallb_forall in H. now apply (H (s, a)).
  - intros S. destruct (table_decided T t) as [[a W] | W].
    + exists a. inversion W; subst. econstructor; eauto.
    + exists (other t). now constructor.
Qed.
End Tools.

Arguments spec {F A} a {L R} t.
#[global] Hint Mode R - - ! - : typeclass_instances.
#[global] Instance I_sep {F : features} {A} a (L : lang A) : R a L -> R (a ^ Many (Str (bs " ") ^ a)) (sep_by (bs " ") L) | 1.
Proof. intros H. now apply R_sep. Qed.
#[global] Instance I_comma {F : features} {A} a (L : lang A) : R a L -> R (a ^ Many (Str (bs ",") ^ a)) (sep_by (bs ",") L) | 1.
Proof. intros H. now apply R_sep. Qed.
#[global] Instance I_dot {F : features} {A} a (L : lang A) : R a L -> R (a ^ Many (Str (bs ".") ^ a)) (sep_by (bs ".") L) | 1.
Proof. intros H. now apply R_sep. Qed.
#[global] Instance I_some {F : features} {A} a (L : lang A) : R a L -> R (some (Str (bs " ") ^ a)) (after (bs " ") (sep_by (bs " ") L)) | 1.
Proof. intros H. now apply R_some_sep. Qed.
#[global] Instance I_list {F : features} {A} a (L : lang A) : R a L -> R (opt (a ^ Many (Str (bs " ") ^ a))) (list_of (bs " ") L) | 0.
Proof. intros H. now apply R_list. Qed.
#[global] Instance I_opt {F : features} {A} a (L : lang A) : R a L -> R (opt a) (optional L) | 5.
Proof. intros H. now apply R_opt. Qed.
#[global] Instance I_parens {F : features} {A} a (L : lang A) : R a L -> R (Str (bs "(") ^ a ^ Str (bs ")")) (in_parens L) | 1.
Proof. intros H. now apply R_parens. Qed.
#[global] Instance I_after {F : features} {A} a (L : lang A) : R a L -> R (Str (bs " ") ^ a) (after (bs " ") L) | 5.
Proof. intros H. now apply R_after. Qed.

(** ** Tactics *)
Ltac fixed H := apply letters_fixed in H; [subst | reflexivity].
(** Takes [derives] hypotheses apart. *)
Ltac dstep := match goal with
  | H : derives true true ?a ?t |- _ =>
    first
    [ apply (spec a) in H; destruct H as [? H]
    | lazymatch a with
      | Str _ => apply D_str in H; try fixed H
      | SP => apply D_str in H; fixed H
      | DQUOTE => apply D_str in H; fixed H
      | Cat _ _ => apply D_cat in H; destruct H as (? & ? & -> & ? & ?)
      | Or _ _ => apply D_or in H; destruct H as [H | H]
      | opt _ => apply D_or in H; destruct H as [H | H]
      | Eps => apply D_eps in H; subst t
      | Where _ _ => apply D_where in H; destruct H
      | Feature _ _ => apply D_feature in H; destruct H
      | Extra _ => apply (proj1 (D_extra_t _ _)) in H
      | Limit _ _ => apply D_limit_t in H; destruct H
      | Beyond _ => apply D_beyond_t in H; destruct H
      | Prose _ => apply D_prose in H
      | Ref _ => apply D_ref in H; cbn [rules deeper] in H
      end ]
  | H : after _ _ _ _ |- _ => inversion H; subst; clear H
  end.
Ltac dinv := repeat dstep.

(** A keyword with the spaces that belong to it *)
Ltac kw := first [ eassumption
  | match goal with H : same_letters ?u ?s |- same_letters _ ?r =>
      change r with (s ++ bs " "); apply letters_app; [exact H | now apply letters_fixed] end
  | match goal with H : same_letters ?u ?s, G : same_letters ?v ?w |- same_letters _ ?r =>
      change r with (s ++ bs " " ++ w ++ bs " "); apply letters_app; [exact H |];
      apply letters_app; [now apply letters_fixed |]; apply letters_app; [exact G | now apply letters_fixed] end
  | now apply letters_fixed ].
Lemma text_is {A} (L : lang A) t u a : L t a -> t = u -> L u a.
Proof. now intros H <-. Qed.
Ltac text := repeat (progress (cbn [app bs]; rewrite <- ?app_assoc, ?app_nil_r)); reflexivity.
Ltac tab := solve [repeat (first [left; reflexivity | right])].
Ltac part := multimatch goal with
  | H : ?P |- ?Q => exact H
  | |- same_letters _ _ => kw
  | |- _ => constructor
  end.

(** ** Building derivations: the text is read from left to right. *)
Section Cont.
Context {F : features}.
Local Notation D := (derives true true).
Lemma c_assoc a b c t : D (a ^ (b ^ c)) t -> D ((a ^ b) ^ c) t.
Proof. rewrite !D_cat. intros (u & v & -> & H & G). apply D_cat in G as (w & z & -> & G & K). exists (u ++ w), z.
  rewrite app_assoc. repeat split; auto. now apply d_cat. Qed.
Lemma c_eps c t : D c t -> D (Eps ^ c) t.
Proof. intros H. apply (d_cat _ _ Eps c []); [constructor | exact H]. Qed.
Lemma c_or_l a b c t : D (a ^ c) t -> D ((a / b) ^ c) t.
Proof. rewrite !D_cat. intros (u & v & -> & H & G). exists u, v. repeat split; auto. now apply d_or_l. Qed.
Lemma c_or_r a b c t : D (b ^ c) t -> D ((a / b) ^ c) t.
Proof. rewrite !D_cat. intros (u & v & -> & H & G). exists u, v. repeat split; auto. now apply d_or_r. Qed.
Lemma c_ref r c t : D (rules r ^ c) t -> D (Ref r ^ c) t.
Proof. rewrite !D_cat. intros (u & v & -> & H & G). exists u, v. repeat split; auto. now constructor. Qed.
Lemma c_extra a c t : D (a ^ c) t -> D (Extra a ^ c) t.
Proof. rewrite !D_cat. intros (u & v & -> & H & G). exists u, v. repeat split; auto. now apply D_extra_t. Qed.
Lemma c_feature b a c t : b = true -> D (a ^ c) t -> D (Feature b a ^ c) t.
Proof. rewrite !D_cat. intros E (u & v & -> & H & G). exists u, v. repeat split; auto. now constructor. Qed.
Lemma c_last a c t : D a t -> D c [] -> D (a ^ c) t.
Proof. intros H G. rewrite <- (app_nil_r t). now apply d_cat. Qed.
Lemma l_ref r t : D (rules r) t -> D (Ref r) t. Proof. now constructor. Qed.
Lemma l_extra a t : D a t -> D (Extra a) t. Proof. now constructor. Qed.
End Cont.
Ltac leaf := lazymatch goal with
  | |- derives _ _ (Str _) _ => apply D_str; first [eassumption | apply letters_fixed; reflexivity | apply same_refl]
  | |- derives _ _ SP _ => apply D_str; apply letters_fixed; reflexivity
  | |- derives _ _ DQUOTE _ => apply D_str; apply letters_fixed; reflexivity
  | |- derives _ _ Eps _ => apply D_eps; reflexivity
  | |- derives _ _ ?a _ => first [ eassumption
      | apply (spec a); eexists; first [eassumption | constructor; eassumption | econstructor; eassumption] ]
  end.
Ltac build := lazymatch goal with
  | |- derives _ _ (Cat ?a ?c) ?T =>
    first [ solve [leaf]
      | lazymatch T with ?x ++ ?y => apply d_cat; [solve [leaf] |]; build end
      | lazymatch a with
        | Cat _ _ => apply c_assoc; build
        | Or _ _ => first [apply c_or_l; build | apply c_or_r; build]
        | opt _ => first [apply c_or_l; build | apply c_or_r; build]
        | Eps => apply c_eps; build
        | Ref _ => apply c_ref; cbn [rules deeper]; build
        | Extra _ => apply c_extra; build
        | Feature _ _ => apply c_feature; [first [assumption | reflexivity] |]; build
        end
      | apply c_last; [solve [leaf] |]; build ]
  | |- derives _ _ ?a _ =>
    first [ solve [leaf]
      | lazymatch a with
        | Or _ _ => first [apply d_or_l; build | apply d_or_r; build]
        | opt _ => first [apply d_or_l; build | apply d_or_r; build]
        | Ref _ => apply l_ref; cbn [rules deeper]; build
        | Extra _ => apply l_extra; build
        | Feature _ _ => apply d_feature; [first [assumption | reflexivity] |]; build
        end ]
  end.
(** The words of a table, one by one *)
Ltac wordcases := repeat match goal with
  | H : word ?T ?t ?a |- _ => apply ex_intro in H; apply word_words in H; unfold T in H; cbn [map fst words when app] in H;
      repeat match type of H with _ \/ _ => destruct H as [H | H] | False => destruct H end
  end.
Ltac inword := match goal with H : same_letters ?t ?s |- word _ ?t _ => apply (word_intro _ t s _); [tab | exact H] end.
(** Splits the spaces off the keywords. *)
Fixpoint to_space (s : bytes) : bytes := match s with [] => [] | b :: s => if beq b bSP then [] else b :: to_space s end.
Fixpoint from_space (s : bytes) : bytes := match s with [] => [] | b :: r => if beq b bSP then r else from_space r end.
Ltac kwsplit := repeat match goal with
  | H : same_letters ?t ?s |- _ =>
    let w := eval vm_compute in (to_space s) in
    let r := eval vm_compute in (from_space s) in
    let e := eval vm_compute in (Nat.eqb (length (to_space s)) (length s)) in
    lazymatch e with false =>
      change s with (w ++ (bs " " ++ r)) in H;
      let u := fresh "k" in let v := fresh "k" in let U := fresh "K" in
      apply letters_split in H; destruct H as (u & v & -> & U & H);
      let v1 := fresh "k" in let v2 := fresh "k" in let V := fresh "K" in
      apply letters_split in H; destruct H as (v1 & v2 & -> & V & H);
      apply letters_fixed in V; [| reflexivity]; subst v1;
      lazymatch r with [] => apply (letters_fixed (bs "") eq_refl) in H; subst v2 | _ => idtac end
    end
  end.
Ltac norm := rewrite ?app_nil_r, <- ?app_assoc, ?app_nil_l.
Ltac orcases H := lazymatch type of H with
  | derives _ _ (Or _ _) _ => apply D_or in H; destruct H as [H | H]; [orcases H | ]
  | _ => idtac end.

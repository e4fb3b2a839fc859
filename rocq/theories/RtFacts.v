(** Reading back what was written: a parser against a list of encoder operations.

    [P p o v f]: on the bytes of [o] followed by any input [s] with [f (hd_error s)], [p]
    returns [v] and leaves exactly [s]; and cut off right before the data of any literal in
    [o], [p] reports that literal. [Rj p o f]: on the same inputs, [p] gives an error an
    [alt] can recover from (or, on a cut, reports the literal). *)

From Verif Require Import Bytes Features Nom Types Conv ParseCore EncodeCtx Encode
  BytesFacts EncodeFacts ParserFacts.

Definition follow := option byte -> bool.
Definition any : follow := fun _ => true.
(** The input goes on with a byte satisfying [g]. *)
Definition on (g : byte -> bool) : follow := fun o => match o with Some b => g b | None => false end.

(** The input up to and including the header of the literal after [pre]. *)
Definition upto_lit (pre : list op) (is8 : bool) (m : lit_mode) (d : bytes) : bytes :=
  dump pre ++ lit_header is8 m (lenN d).

Record P {A} (p : parser A) (o : list op) (v : A) (f : follow) : Prop := mkP {
  P_full : forall s, f (hd_error s) = true -> p (dump o ++ s) = ROk s v;
  P_cut : forall pre is8 m d post, o = pre ++ Lit is8 m d :: post ->
    p (upto_lit pre is8 m d) = RFail (FLit None (lenN d) m) }.

Record Rj {A} (p : parser A) (o : list op) (f : follow) : Prop := mkRj {
  Rj_full : forall s, f (hd_error s) = true -> p (dump o ++ s) = RErr;
  Rj_cut : forall pre is8 m d post, o = pre ++ Lit is8 m d :: post ->
    p (upto_lit pre is8 m d) = RErr \/
    p (upto_lit pre is8 m d) = RFail (FLit None (lenN d) m) }.

(** First byte written. *)
Definition first (o : list op) : option byte :=
  match o with
  | [] => None
  | B b :: _ => Some b
  | Lit is8 _ _ :: _ => Some (if is8 then "~"%byte else "{"%byte)
  end.
(** Whatever follows ([o], then an input in [f]) is allowed by [f1]. *)
Definition leads (f1 : follow) (o : list op) (f : follow) : Prop :=
  match o with
  | [] => forall b, f b = true -> f1 b = true
  | _ => f1 (first o) = true
  end.

Lemma dump_Lit is8 m d o : dump (Lit is8 m d :: o) = lit_header is8 m (lenN d) ++ d ++ dump o.
Proof. cbn. now rewrite <- app_assoc. Qed.
Lemma hd_lit is8 m n x : hd_error (lit_header is8 m n ++ x) = Some (if is8 then "~"%byte else "{"%byte).
Proof. unfold lit_header. destruct is8; reflexivity. Qed.

Lemma leads_full f1 o f s : leads f1 o f -> f (hd_error s) = true ->
  f1 (hd_error (dump o ++ s)) = true.
Proof.
  destruct o as [|[b|is8 m d] o]; cbn [leads first]; intros H Hs.
  - apply H, Hs.
  - exact H.
  - rewrite dump_Lit, <- !app_assoc, hd_lit. exact H.
Qed.

Lemma leads_cut f1 o f pre is8 m d post : leads f1 o f -> o = pre ++ Lit is8 m d :: post ->
  f1 (hd_error (upto_lit pre is8 m d)) = true.
Proof.
  unfold upto_lit.
  destruct pre as [|[b|is8' m' d'] pre]; intros H ->; cbn [leads first app] in H.
  - rewrite dump_nil; cbn [app]. rewrite <- (app_nil_r (lit_header _ _ _)), hd_lit. exact H.
  - exact H.
  - rewrite dump_Lit, <- !app_assoc, hd_lit. exact H.
Qed.

(** *** Extensionality, follow sets *)

Lemma P_ext {A} (p q : parser A) o v f : (forall i, p i = q i) -> P q o v f -> P p o v f.
Proof. intros E [H1 H2]. split; intros; rewrite E; eauto. Qed.
Lemma Rj_ext {A} (p q : parser A) o f : (forall i, p i = q i) -> Rj q o f -> Rj p o f.
Proof. intros E [H1 H2]. split; intros; rewrite E; eauto. Qed.
Lemma P_weak {A} (p : parser A) o v f g : (forall b, g b = true -> f b = true) ->
  P p o v f -> P p o v g.
Proof. intros E [H1 H2]. split; intros; eauto. Qed.
Lemma Rj_weak {A} (p : parser A) o f g : (forall b, g b = true -> f b = true) ->
  Rj p o f -> Rj p o g.
Proof. intros E [H1 H2]. split; intros; eauto. Qed.

Lemma on_impl f g : forallb (fun b => implb (f b) (g b)) all_bytes = true ->
  forall o, on f o = true -> on g o = true.
Proof.
  intros H [b|]; cbn; [|discriminate]. pose proof (byte_forall _ H b) as E. cbn in E.
  destruct (f b); [intros _; exact E | discriminate].
Qed.
Lemma to_any f : forall o, f o = true -> any o = true.
Proof. reflexivity. Qed.

Lemma assoc {A T C} (p : parser A) (q : A -> parser T) (r : T -> parser C) i :
  bind (bind p q) r i = bind p (fun a => bind (q a) r) i.
Proof. unfold bind. destruct (p i); reflexivity. Qed.
Lemma P_assoc {A T C} (p : parser A) (q : A -> parser T) (r : T -> parser C) o v f :
  P (bind p (fun a => bind (q a) r)) o v f -> P (bind (bind p q) r) o v f.
Proof. apply P_ext, assoc. Qed.
Lemma Rj_assoc {A T C} (p : parser A) (q : A -> parser T) (r : T -> parser C) o f :
  Rj (bind p (fun a => bind (q a) r)) o f -> Rj (bind (bind p q) r) o f.
Proof. apply Rj_ext, assoc. Qed.

(** *** Sequencing *)

Lemma P_ret {A} (v : A) f : P (ret v) [] v f.
Proof.
  split; [reflexivity|]. intros [|] is8 m d post H; discriminate H.
Qed.

Lemma cut_app o1 o2 pre is8 m d post : o1 ++ o2 = pre ++ Lit is8 m d :: post ->
  (exists post', o1 = pre ++ Lit is8 m d :: post') \/
  (exists pre', pre = o1 ++ pre' /\ o2 = pre' ++ Lit is8 m d :: post).
Proof.
  revert pre. induction o1 as [|x o1 IH]; intros pre H.
  - right. exists pre. auto.
  - destruct pre as [|y pre]; cbn in H.
    + injection H as -> H. left. exists o1. reflexivity.
    + injection H as -> H. destruct (IH _ H) as [[post' ->]|[pre' [-> ->]]].
      * left. exists post'. reflexivity.
      * right. exists pre'. auto.
Qed.

Lemma P_bind {A T} (p : parser A) (q : A -> parser T) o1 o2 v w f1 f :
  P p o1 v f1 -> leads f1 o2 f -> P (q v) o2 w f -> P (bind p q) (o1 ++ o2) w f.
Proof.
  intros [p1 p2] L [q1 q2]. split.
  - intros s Hs. unfold bind. rewrite dump_app, <- app_assoc.
    rewrite (p1 (dump o2 ++ s)) by (eapply leads_full; eassumption). apply q1, Hs.
  - intros pre is8 m d post H. unfold bind.
    destruct (cut_app _ _ _ _ _ _ _ H) as [[post' E]|[pre' [-> E]]].
    + rewrite (p2 _ _ _ _ _ E). reflexivity.
    + unfold upto_lit. rewrite dump_app, <- app_assoc.
      change (dump pre' ++ _) with (upto_lit pre' is8 m d).
      rewrite p1 by (eapply leads_cut; eassumption). eapply q2, E.
Qed.

Lemma P_bindl {A T} (p : parser A) (q : A -> parser T) o v w f1 f :
  P p o v f1 -> leads f1 [] f -> P (q v) [] w f -> P (bind p q) o w f.
Proof. intros. rewrite <- (app_nil_r o). eapply P_bind; eassumption. Qed.

Lemma P_pmap {A T} (g : A -> T) (p : parser A) o v f : P p o v f -> P (pmap g p) o (g v) f.
Proof. intros H. eapply P_bindl; [exact H | exact (fun _ h => h) | apply P_ret]. Qed.
Lemma P_pmap' {A T} (g : A -> T) (p : parser A) o v w f : w = g v -> P p o v f -> P (pmap g p) o w f.
Proof. intros ->. apply P_pmap. Qed.
Lemma P_value {A T} (b : T) (p : parser A) o v f : P p o v f -> P (value b p) o b f.
Proof. intros H. eapply P_bindl; [exact H | exact (fun _ h => h) | apply P_ret]. Qed.
Lemma P_map_res {A T} (p : parser A) (g : A -> option T) o v w f :
  g v = Some w -> P p o v f -> P (map_res p g) o w f.
Proof.
  intros E H. eapply P_bindl; [exact H | exact (fun _ h => h) |]. rewrite E. apply P_ret.
Qed.
Lemma P_expect {A T} (p : parser A) (g : A -> option T) o v w f :
  g v = Some w -> P p o v f -> P (expect p g) o w f.
Proof.
  intros E H. eapply P_bindl; [exact H | exact (fun _ h => h) |]. rewrite E. apply P_ret.
Qed.

Lemma Rj_bind {A T} (p : parser A) (q : A -> parser T) o f : Rj p o f -> Rj (bind p q) o f.
Proof.
  intros [H1 H2]. split.
  - intros s Hs. unfold bind. rewrite H1; auto.
  - intros pre is8 m d post E. unfold bind.
    destruct (H2 _ _ _ _ _ E) as [->| ->]; auto.
Qed.
Lemma Rj_seq {A T} (p : parser A) (q : A -> parser T) o1 o2 v f1 f :
  P p o1 v f1 -> leads f1 o2 f -> Rj (q v) o2 f -> Rj (bind p q) (o1 ++ o2) f.
Proof.
  intros [p1 p2] L [q1 q2]. split.
  - intros s Hs. unfold bind. rewrite dump_app, <- app_assoc.
    rewrite (p1 (dump o2 ++ s)) by (eapply leads_full; eassumption). apply q1, Hs.
  - intros pre is8 m d post H. unfold bind.
    destruct (cut_app _ _ _ _ _ _ _ H) as [[post' E]|[pre' [-> E]]].
    + rewrite (p2 _ _ _ _ _ E). auto.
    + unfold upto_lit. rewrite dump_app, <- app_assoc.
      change (dump pre' ++ _) with (upto_lit pre' is8 m d).
      rewrite p1 by (eapply leads_cut; eassumption). eapply q2, E.
Qed.
Lemma Rj_seql {A T} (p : parser A) (q : A -> parser T) o v f1 f :
  P p o v f1 -> leads f1 [] f -> Rj (q v) [] f -> Rj (bind p q) o f.
Proof. intros. rewrite <- (app_nil_r o). eapply Rj_seq; eassumption. Qed.

Lemma Rj_perr {A} o f : Rj (@perr A) o f.
Proof. split; intros; [|left]; reflexivity. Qed.

(** *** Alternatives *)

Lemma P_orp_l {A} (p q : parser A) o v f : P p o v f -> P (orp p q) o v f.
Proof. intros [H1 H2]. split; intros; unfold orp; [rewrite H1 | erewrite H2]; eauto. Qed.
Lemma P_orp_r {A} (p q : parser A) o v f : Rj p o f -> P q o v f -> P (orp p q) o v f.
Proof.
  intros [r1 r2] [H1 H2]. split; intros; unfold orp.
  - rewrite r1; auto.
  - destruct (r2 _ _ _ _ _ H) as [->| ->]; eauto.
Qed.
Lemma Rj_orp {A} (p q : parser A) o f : Rj p o f -> Rj q o f -> Rj (orp p q) o f.
Proof.
  intros [r1 r2] [H1 H2]. split; intros; unfold orp.
  - rewrite r1; auto.
  - destruct (r2 _ _ _ _ _ H) as [->| ->]; eauto.
Qed.
Lemma P_alt_here {A} (p : parser A) ps o v f : P p o v f -> P (alt (p :: ps)) o v f.
Proof. destruct ps; [auto | apply P_orp_l]. Qed.
Lemma P_alt_skip {A} (p : parser A) q ps o v f :
  Rj p o f -> P (alt (q :: ps)) o v f -> P (alt (p :: q :: ps)) o v f.
Proof. apply P_orp_r. Qed.
Lemma Rj_alt_nil {A} o f : Rj (@alt A []) o f.
Proof. apply Rj_perr. Qed.
Lemma Rj_alt_cons {A} (p : parser A) ps o f : Rj p o f -> Rj (alt ps) o f -> Rj (alt (p :: ps)) o f.
Proof. intros H. destruct ps; [auto | apply Rj_orp, H]. Qed.

Lemma P_opt_some {A} (p : parser A) o v f : P p o v f -> P (opt p) o (Some v) f.
Proof. intros [H1 H2]. split; intros; unfold opt; [rewrite H1 | erewrite H2]; eauto. Qed.
Lemma P_opt_none {A} (p : parser A) f : Rj p [] f -> P (opt p) [] None f.
Proof.
  intros [H1 H2]. split; intros.
  - unfold opt. specialize (H1 s H). rewrite dump_nil in *; cbn [app] in *. rewrite H1. reflexivity.
  - destruct pre; discriminate H.
Qed.
Lemma P_opt_skip {A T} (p : parser A) (q : option A -> parser T) o v f :
  Rj p o f -> P (q None) o v f -> P (bind (opt p) q) o v f.
Proof.
  intros [r1 r2] [H1 H2]. split; intros; unfold bind, opt.
  - rewrite r1; auto.
  - destruct (r2 _ _ _ _ _ H) as [->| ->]; eauto.
Qed.
Lemma Rj_opt_skip {A T} (p : parser A) (q : option A -> parser T) o f :
  Rj p o f -> Rj (q None) o f -> Rj (bind (opt p) q) o f.
Proof.
  intros [r1 r2] [H1 H2]. split; intros; unfold bind, opt.
  - rewrite r1; auto.
  - destruct (r2 _ _ _ _ _ H) as [->| ->]; eauto.
Qed.

(** *** Keywords: [eat], [mis] compare a keyword with written bytes *)

Fixpoint eat (same : byte -> byte -> bool) (t : bytes) (o : list op) : option (list op) :=
  match t with
  | [] => Some o
  | c :: t' =>
    match o with
    | B x :: o' => if same x c then eat same t' o' else None
    | _ => None
    end
  end.
Definition ci (x c : byte) : bool := beq (lower x) (lower c).

Fixpoint mis (same : byte -> byte -> bool) (t : bytes) (o : list op) (f : follow) : bool :=
  match t with
  | [] => false
  | c :: t' =>
    match o with
    | B x :: o' => if same x c then mis same t' o' f else true
    | Lit is8 _ _ :: _ => negb (same (if is8 then "~"%byte else "{"%byte) c)
    | [] => negb (f None) && forallb (fun b => implb (f (Some b)) (negb (same b c))) all_bytes
    end
  end.

Lemma nil_cut pre is8 m d post : [] = pre ++ Lit is8 m d :: post -> False.
Proof. destruct pre; discriminate. Qed.

Lemma cutB x o pre is8 m d post : B x :: o = pre ++ Lit is8 m d :: post ->
  exists pre', pre = B x :: pre' /\ o = pre' ++ Lit is8 m d :: post.
Proof.
  destruct pre as [|y pre]; cbn; [discriminate|]. intros E. injection E as <- E. eauto.
Qed.

Section Tags.
Variable same : byte -> byte -> bool.
(** [tag], [tag_no_case] *)
Variable tg' : bytes -> parser unit.
Hypothesis tg_nil : forall i, tg' [] i = ROk i tt.
Hypothesis tg_cons : forall c t i, tg' (c :: t) i =
  match i with [] => RInc | x :: i' => if same x c then tg' t i' else RErr end.

Lemma P_eat {T} (q : unit -> parser T) t o o' v f : eat same t o = Some o' ->
  P (q tt) o' v f -> P (bind (tg' t) q) o v f.
Proof.
  revert o. induction t as [|c t IH]; intros o E H.
  - injection E as ->. eapply P_ext; [|exact H]. intros i. unfold bind. rewrite tg_nil. reflexivity.
  - destruct o as [|[x|] o]; try discriminate. cbn [eat] in E.
    destruct (same x c) eqn:S; [|discriminate]. destruct (IH _ E H) as [H1 H2].
    split.
    + intros s Hs. rewrite dump_B. cbn [app]. unfold bind. rewrite tg_cons, S. apply H1, Hs.
    + intros pre is8 m d post E'. destruct (cutB _ _ _ _ _ _ _ E') as [pre' [-> E'']]. unfold upto_lit. rewrite dump_B. cbn [app]. unfold bind.
      rewrite tg_cons, S. eapply H2, E''.
Qed.

Lemma Rj_eat {T} (q : unit -> parser T) t o o' f : eat same t o = Some o' ->
  Rj (q tt) o' f -> Rj (bind (tg' t) q) o f.
Proof.
  revert o. induction t as [|c t IH]; intros o E H.
  - injection E as ->. eapply Rj_ext; [|exact H]. intros i. unfold bind. rewrite tg_nil. reflexivity.
  - destruct o as [|[x|] o]; try discriminate. cbn [eat] in E.
    destruct (same x c) eqn:S; [|discriminate]. destruct (IH _ E H) as [H1 H2].
    split.
    + intros s Hs. rewrite dump_B. cbn [app]. unfold bind. rewrite tg_cons, S. apply H1, Hs.
    + intros pre is8 m d post E'. destruct (cutB _ _ _ _ _ _ _ E') as [pre' [-> E'']]. unfold upto_lit. rewrite dump_B. cbn [app]. unfold bind.
      rewrite tg_cons, S. eapply H2, E''.
Qed.

Lemma P_eatl t o f : eat same t o = Some [] -> P (tg' t) o tt f.
Proof.
  intros E. eapply P_ext; [|eapply (P_eat (fun _ => ret tt) t o); [exact E | apply P_ret]].
  intros i. unfold bind. destruct (tg' t i) as [r []| | | |]; reflexivity.
Qed.

Lemma Rj_mis t o f : mis same t o f = true -> Rj (tg' t) o f.
Proof.
  revert o. induction t as [|c t IH]; intros o E; [discriminate|].
  destruct o as [|[x|is8 m d] o]; cbn [mis] in E.
  - apply andb_prop in E. destruct E as [E1 E2]. split.
    + intros s Hs. rewrite dump_nil; cbn [app]. rewrite tg_cons. destruct s as [|b s]; cbn in Hs.
      * rewrite Hs in E1. discriminate.
      * pose proof (byte_forall _ E2 b) as Hb. cbn in Hb. rewrite Hs in Hb.
        destruct (same b c); [discriminate | reflexivity].
    + intros pre is8' m' d' post H. destruct (nil_cut _ _ _ _ _ H).
  - destruct (same x c) eqn:S.
    + destruct (IH _ E) as [H1 H2]. split.
      * intros s Hs. rewrite dump_B. cbn [app]. rewrite tg_cons, S. apply H1, Hs.
      * intros pre is8 m d post E'. destruct (cutB _ _ _ _ _ _ _ E') as [pre' [-> E'']]. unfold upto_lit. rewrite dump_B. cbn [app].
        rewrite tg_cons, S. eapply H2, E''.
    + split.
      * intros s Hs. rewrite dump_B. cbn [app]. rewrite tg_cons, S. reflexivity.
      * intros pre is8 m d post E'. destruct (cutB _ _ _ _ _ _ _ E') as [pre' [-> E'']]. left. unfold upto_lit. rewrite dump_B. cbn [app].
        rewrite tg_cons, S. reflexivity.
  - apply negb_true_iff in E.
    assert (K : forall x, tg' (c :: t) (lit_header is8 m (lenN d) ++ x) = RErr).
    { intros x. rewrite tg_cons. unfold lit_header. destruct is8; cbn [app]; rewrite E; reflexivity. }
    split.
    + intros s Hs. rewrite dump_Lit, <- !app_assoc. apply K.
    + intros [|[y|is81 m1 d1] pre] is82 m2 d2 post E'; cbn in E'; try discriminate; left.
      * injection E' as -> -> -> ->. unfold upto_lit. rewrite dump_nil; cbn [app].
        rewrite <- (app_nil_r (lit_header _ _ _)). apply K.
      * injection E' as -> -> -> ->. unfold upto_lit. rewrite dump_Lit, <- !app_assoc. apply K.
Qed.
End Tags.

Definition P_kw {T} := @P_eat ci tag_no_case (fun _ => eq_refl) (fun _ _ _ => eq_refl) T.
Definition P_tg {T} := @P_eat beq tag (fun _ => eq_refl) (fun _ _ _ => eq_refl) T.
Definition Rj_kwq {T} := @Rj_eat ci tag_no_case (fun _ => eq_refl) (fun _ _ _ => eq_refl) T.
Definition Rj_tgq {T} := @Rj_eat beq tag (fun _ => eq_refl) (fun _ _ _ => eq_refl) T.
Definition P_kwl := P_eatl ci tag_no_case (fun _ => eq_refl) (fun _ _ _ => eq_refl).
Definition P_tgl := P_eatl beq tag (fun _ => eq_refl) (fun _ _ _ => eq_refl).
Definition Rj_kw := Rj_mis ci tag_no_case (fun _ _ _ => eq_refl).
Definition Rj_tg := Rj_mis beq tag (fun _ _ _ => eq_refl).

(** *** Single characters and character classes *)

Lemma P_sat {T} g (q : byte -> parser T) x o v f : g x = true -> P (q x) o v f ->
  P (bind (sat g) q) (B x :: o) v f.
Proof.
  intros G [H1 H2]. split.
  - intros s Hs. rewrite dump_B. cbn [app]. unfold bind, sat. rewrite G. apply H1, Hs.
  - intros pre is8 m d post E. destruct (cutB _ _ _ _ _ _ _ E) as [pre' [-> E']].
    unfold upto_lit. rewrite dump_B. cbn [app]. unfold bind, sat. rewrite G. eapply H2, E'.
Qed.
Lemma P_char {T} c (q : byte -> parser T) o v f : P (q c) o v f ->
  P (bind (char c) q) (B c :: o) v f.
Proof. intros H. apply P_sat; [apply beq_refl | exact H]. Qed.
Lemma Rj_char_eat {T} c (q : byte -> parser T) o f : Rj (q c) o f ->
  Rj (bind (char c) q) (B c :: o) f.
Proof.
  intros [H1 H2]. split.
  - intros s Hs. rewrite dump_B. cbn [app]. unfold bind, char, sat. rewrite beq_refl. apply H1, Hs.
  - intros pre is8 m d post E. destruct (cutB _ _ _ _ _ _ _ E) as [pre' [-> E']].
    unfold upto_lit. rewrite dump_B. cbn [app]. unfold bind, char, sat. rewrite beq_refl. eapply H2, E'.
Qed.

(** [p] gives an error on every input starting with [b]. *)
Definition refuses {A} (p : parser A) (b : byte) : Prop := forall s, p (b :: s) = RErr.

(** The bytes written for [o] (followed by an input in [f]) start with a byte in [Q]. *)
Definition starts (Q : byte -> bool) (o : list op) (f : follow) : Prop := leads (on Q) o f.

Lemma Rj_starts {A} (p : parser A) Q o f : starts Q o f ->
  (forall b, Q b = true -> refuses p b) -> Rj p o f.
Proof.
  intros H R. split.
  - intros s Hs. pose proof (leads_full _ _ _ _ H Hs) as E.
    destruct (dump o ++ s) as [|b x]; [discriminate|]. exact (R b E x).
  - intros pre is8 m d post E. left. pose proof (leads_cut _ _ _ _ _ _ _ _ H E) as E'.
    destruct (upto_lit pre is8 m d) as [|b x]; [discriminate|]. exact (R b E' x).
Qed.

Lemma refuses_sat g b : g b = false -> refuses (sat g) b.
Proof. intros H s. unfold sat. rewrite H. reflexivity. Qed.
Lemma refuses_char c b : beq b c = false -> refuses (char c) b.
Proof. apply (refuses_sat (fun x => beq x c)). Qed.
Lemma refuses_tw1 g b : g b = false -> refuses (take_while1 g) b.
Proof. intros H s. unfold take_while1. cbn [span]. rewrite H. reflexivity. Qed.
Lemma refuses_twmn m n g b : m <> 0 -> g b = false -> refuses (take_while_m_n m n g) b.
Proof.
  intros Hm H s. unfold take_while_m_n. cbn [span]. rewrite H. cbn [length].
  destruct m; [congruence | reflexivity].
Qed.
Lemma refuses_tag c t b : beq b c = false -> refuses (tag (c :: t)) b.
Proof. intros H s. cbn [tag]. rewrite H. reflexivity. Qed.
Lemma refuses_kw c t b : ci b c = false -> refuses (tag_no_case (c :: t)) b.
Proof. intros H s. cbn [tag_no_case]. unfold ci in H. rewrite H. reflexivity. Qed.
Lemma refuses_bind {A T} (p : parser A) (q : A -> parser T) b : refuses p b -> refuses (bind p q) b.
Proof. intros H s. unfold bind. rewrite H. reflexivity. Qed.
Lemma refuses_opt_bind {A T} (p : parser A) (q : option A -> parser T) b :
  refuses p b -> refuses (q None) b -> refuses (bind (opt p) q) b.
Proof. intros H H' s. unfold bind, opt. rewrite H. apply H'. Qed.
Lemma refuses_orp {A} (p q : parser A) b : refuses p b -> refuses q b -> refuses (orp p q) b.
Proof. intros H H' s. unfold orp. rewrite H. apply H'. Qed.
Lemma refuses_alt_nil {A} b : refuses (@alt A []) b.
Proof. intros s. reflexivity. Qed.
Lemma refuses_alt_cons {A} (p : parser A) ps b : refuses p b -> refuses (alt ps) b ->
  refuses (alt (p :: ps)) b.
Proof. intros H H'. destruct ps; [exact H | apply refuses_orp; assumption]. Qed.
Lemma refuses_gate {A} g (p : parser A) b : refuses p b -> refuses (gate g p) b.
Proof. intros H s. destruct g; [apply H | reflexivity]. Qed.
Lemma refuses_many1 {A} (p : parser A) b : refuses p b -> refuses (many1 p) b.
Proof. apply refuses_bind. Qed.
Lemma refuses_sep1 {A T} (sep : parser T) (p : parser A) b : refuses p b -> refuses (sep_list1 sep p) b.
Proof. apply refuses_bind. Qed.
Lemma refuses_recognize {A} (p : parser A) b : refuses p b -> refuses (recognize p) b.
Proof. intros H s. unfold recognize. rewrite H. reflexivity. Qed.

(** *** Tokens *)

Definition noLit (o : list op) : bool := forallb (fun x => match x with B _ => true | _ => false end) o.
Lemma noLit_cut o pre is8 m d post : noLit o = true -> o = pre ++ Lit is8 m d :: post -> False.
Proof.
  intros H ->. unfold noLit in H. rewrite forallb_app in H. apply andb_prop in H.
  destruct H as [_ H]. discriminate H.
Qed.
Lemma noLit_W x : noLit (W x) = true.
Proof. induction x; auto. Qed.
Lemma P_tok {A} (p : parser A) x v f :
  (forall s, f (hd_error s) = true -> p (x ++ s) = ROk s v) -> P p (W x) v f.
Proof.
  intros H. split.
  - intros s Hs. rewrite dump_W. apply H, Hs.
  - intros pre is8 m d post E. destruct (noLit_cut _ _ _ _ _ _ (noLit_W x) E).
Qed.
Lemma P_tok' {A} (p : parser A) o v f : noLit o = true ->
  (forall s, f (hd_error s) = true -> p (dump o ++ s) = ROk s v) -> P p o v f.
Proof.
  intros N H. split.
  - intros s Hs. apply H, Hs.
  - intros pre is8 m d post E. destruct (noLit_cut _ _ _ _ _ _ N E).
Qed.

Definition non (g : byte -> bool) : follow := on (fun b => negb (g b)).

Lemma span_read g x s : forallb g x = true -> non g (hd_error s) = true ->
  span g (x ++ s) = Some (x, s).
Proof.
  intros H Hs. induction x as [|a x IH]; cbn [app span].
  - destruct s as [|b s]; [discriminate|]. cbn in Hs. apply negb_true_iff in Hs.
    cbn [span]. rewrite Hs. reflexivity.
  - cbn in H. apply andb_prop in H. destruct H as [-> H]. rewrite IH by exact H. reflexivity.
Qed.
Lemma P_take_while g x : forallb g x = true -> P (take_while g) (W x) x (non g).
Proof. intros H. apply P_tok. intros s Hs. unfold take_while. rewrite span_read; auto. Qed.
Lemma P_take_while1 g x : x <> [] -> forallb g x = true -> P (take_while1 g) (W x) x (non g).
Proof.
  intros N H. apply P_tok. intros s Hs. unfold take_while1. rewrite span_read by assumption.
  destruct x; [congruence | reflexivity].
Qed.

(** *** Lists *)

(** Something is written, and it starts with a byte allowed by [f]. *)
Definition lead1 (f : follow) (o : list op) : Prop := exists b, first o = Some b /\ f (Some b) = true.
Lemma lead1_leads f1 o o' f : lead1 f1 o -> leads f1 (o ++ o') f.
Proof. intros (b & H & E). destruct o as [|[|] o]; cbn in *; congruence. Qed.
Lemma lead1_app f o o' : lead1 f o -> lead1 f (o ++ o').
Proof. intros (b & H & E). exists b. destruct o as [|[|] o]; cbn in *; auto; congruence. Qed.
Lemma lead1_len f o s : lead1 f o -> length s < length (dump o ++ s).
Proof.
  intros (b & H & _). rewrite app_length.
  destruct o as [|[x|is8 m d] o]; cbn in *; [congruence | lia |].
  rewrite !app_length. unfold lit_header. destruct is8; cbn; lia.
Qed.
Lemma lead1_weak f g o : (forall b, f b = true -> g b = true) -> lead1 f o -> lead1 g o.
Proof. intros I (b & H & E). exists b. auto. Qed.

Section Many.
Context {A T : Type}.
Variable p : parser A.

Lemma many0_f_fuel : forall f g i, length i < f -> length i < g -> many0_f f p i = many0_f g p i.
Proof.
  induction f as [| f IH]; [lia |]. intros [| g] i Lf Lg; [lia |]. cbn [many0_f].
  destruct (p i) as [r a | | | | ] eqn:E; try reflexivity.
  destruct (Nat.ltb_spec (length r) (length i)); [| reflexivity].
  rewrite (IH g r) by lia. reflexivity.
Qed.
Lemma many0_more (q : list A -> parser T) i r a : p i = ROk r a -> length r < length i ->
  bind (many0 p) q i = bind (many0 p) (fun l => q (a :: l)) r.
Proof.
  intros E L. unfold bind, many0. cbn [many0_f]. rewrite E.
  destruct (Nat.ltb_spec (length r) (length i)); [|lia].
  rewrite (many0_f_fuel (length i) (S (length r))) by lia.
  cbn [many0_f]. destruct (match p r with ROk _ _ => _ | _ => _ end); reflexivity.
Qed.
Lemma many0_stop (q : list A -> parser T) i : p i = RErr -> bind (many0 p) q i = q [] i.
Proof. intros E. unfold bind, many0. cbn [many0_f]. rewrite E. reflexivity. Qed.
Lemma many0_fail (q : list A -> parser T) i e : p i = RFail e -> bind (many0 p) q i = RFail e.
Proof. intros E. unfold bind, many0. cbn [many0_f]. rewrite E. reflexivity. Qed.

Lemma P_many0_bind (e : A -> list op) l : forall (q : list A -> parser T) o v fe f,
  (forall x, In x l -> P p (e x) x fe /\ lead1 fe (e x)) ->
  leads fe o f -> Rj p o f -> P (q l) o v f ->
  P (bind (many0 p) q) (flat_map e l ++ o) v f.
Proof.
  induction l as [|x l IH]; intros q o v fe f He L R H; cbn [flat_map].
  - destruct R as [r1 r2], H as [H1 H2]. cbn [app]. split; intros.
    + rewrite many0_stop by auto. auto.
    + destruct (r2 _ _ _ _ _ H) as [E|E].
      * rewrite many0_stop by exact E. eauto.
      * apply many0_fail, E.
  - destruct (He x (or_introl eq_refl)) as [[p1 p2] Lx].
    assert (He' : forall x, In x l -> P p (e x) x fe /\ lead1 fe (e x)) by (intros; apply He; now right).
    destruct (IH (fun l => q (x :: l)) o v fe f He' L R H) as [h1 h2].
    assert (L' : leads fe (flat_map e l ++ o) f).
    { destruct l as [|y l]; [exact L|]. cbn [flat_map]. rewrite <- app_assoc.
      apply lead1_leads. apply He'. now left. }
    rewrite <- app_assoc. split.
    + intros s Hs. rewrite dump_app, <- app_assoc.
      erewrite many0_more; [| apply p1; eapply leads_full; eassumption | eapply lead1_len, Lx].
      apply h1, Hs.
    + intros pre is8 m d post E.
      destruct (cut_app _ _ _ _ _ _ _ E) as [[post' E']|[pre' [-> E']]].
      * apply many0_fail. eapply p2, E'.
      * unfold upto_lit. rewrite dump_app, <- app_assoc.
        change (dump pre' ++ _) with (upto_lit pre' is8 m d).
        erewrite many0_more; [| apply p1; eapply leads_cut; eassumption | eapply lead1_len, Lx].
        eapply h2, E'.
Qed.

Variable C : Type.
Variable sep : parser C.
Lemma sep_loop_f_fuel : forall f g i, length i < f -> length i < g ->
  sep_loop_f f sep p i = sep_loop_f g sep p i.
Proof.
  induction f as [| f IH]; [lia |]. intros [| g] i Lf Lg; [lia |]. cbn [sep_loop_f].
  destruct (sep i) as [i1 b | | | | ] eqn:E; try reflexivity.
  destruct (Nat.ltb_spec (length i1) (length i)); [| reflexivity].
  destruct (p i1) as [i2 a | | | | ] eqn:E2; try reflexivity.
  destruct (Nat.leb_spec (length i2) (length i1)); [| reflexivity].
  rewrite (IH g i2) by lia. reflexivity.
Qed.
Lemma sep_loop_more (q : list A -> parser T) i i1 c i2 a : sep i = ROk i1 c -> length i1 < length i ->
  p i1 = ROk i2 a -> length i2 <= length i1 ->
  bind (sep_loop sep p) q i = bind (sep_loop sep p) (fun l => q (a :: l)) i2.
Proof.
  intros E L E2 L2. unfold bind, sep_loop. cbn [sep_loop_f]. rewrite E.
  destruct (Nat.ltb_spec (length i1) (length i)); [|lia]. rewrite E2.
  destruct (Nat.leb_spec (length i2) (length i1)); [|lia].
  rewrite (sep_loop_f_fuel (length i) (S (length i2))) by lia.
  cbn [sep_loop_f]. destruct (match sep i2 with ROk _ _ => _ | _ => _ end); reflexivity.
Qed.
Lemma sep_loop_stop (q : list A -> parser T) i : sep i = RErr -> bind (sep_loop sep p) q i = q [] i.
Proof. intros E. unfold bind, sep_loop. cbn [sep_loop_f]. rewrite E. reflexivity. Qed.
Lemma sep_loop_fail (q : list A -> parser T) i e : sep i = RFail e -> bind (sep_loop sep p) q i = RFail e.
Proof. intros E. unfold bind, sep_loop. cbn [sep_loop_f]. rewrite E. reflexivity. Qed.
Lemma sep_loop_fail2 (q : list A -> parser T) i i1 c e : sep i = ROk i1 c -> length i1 < length i ->
  p i1 = RFail e -> bind (sep_loop sep p) q i = RFail e.
Proof.
  intros E L E2. unfold bind, sep_loop. cbn [sep_loop_f]. rewrite E.
  destruct (Nat.ltb_spec (length i1) (length i)); [|lia]. rewrite E2. reflexivity.
Qed.

Lemma P_sep_loop_bind (so : bytes) c (e : A -> list op) l : forall (q : list A -> parser T) o v fe f,
  so <> [] -> P sep (W so) c any -> fe (hd_error so) = true ->
  (forall x, In x l -> P p (e x) x fe) ->
  leads fe o f -> Rj sep o f -> P (q l) o v f ->
  P (bind (sep_loop sep p) q) (flat_map (fun x => W so ++ e x) l ++ o) v f.
Proof.
  induction l as [|x l IH]; intros q o v fe f Nso Ps Fs He L R H; cbn [flat_map].
  - destruct R as [r1 r2], H as [H1 H2]. cbn [app]. split; intros.
    + rewrite sep_loop_stop by auto. auto.
    + destruct (r2 _ _ _ _ _ H) as [E|E].
      * rewrite sep_loop_stop by exact E. eauto.
      * apply sep_loop_fail, E.
  - destruct (He x (or_introl eq_refl)) as [p1 p2].
    assert (He' : forall x, In x l -> P p (e x) x fe) by (intros; apply He; now right).
    destruct (IH (fun l => q (x :: l)) o v fe f Nso Ps Fs He' L R H) as [h1 h2].
    destruct Ps as [s1 s2].
    assert (L' : leads fe (flat_map (fun x => W so ++ e x) l ++ o) f).
    { destruct l as [|y l]; [exact L|]. cbn [flat_map]. destruct so; [congruence|]. exact Fs. }
    rewrite <- !app_assoc.
    assert (LL : forall s, length s < length (so ++ s)).
    { intros s. rewrite app_length. destruct so; [congruence|]. cbn. lia. }
    split.
    + intros s Hs. rewrite dump_app, dump_W, <- app_assoc, dump_app, <- app_assoc.
      assert (E1 := s1 (dump (e x) ++ dump (flat_map (fun x => W so ++ e x) l ++ o) ++ s) eq_refl).
      rewrite dump_W in E1.
      erewrite sep_loop_more; [| exact E1 | apply LL | apply p1; eapply leads_full; eassumption
        | rewrite (app_length (dump (e x))); lia].
      apply h1, Hs.
    + intros pre is8 m d post E.
      destruct (cut_app _ _ _ _ _ _ _ E) as [[post' E']|[pre1 [-> E1]]].
      { destruct (noLit_cut _ _ _ _ _ _ (noLit_W so) E'). }
      assert (K : forall s, sep (so ++ s) = ROk s c).
      { intros s. specialize (s1 s eq_refl). rewrite dump_W in s1. exact s1. }
      unfold upto_lit. rewrite dump_app, dump_W, <- app_assoc.
      destruct (cut_app _ _ _ _ _ _ _ E1) as [[post' E']|[pre' [-> E']]].
      * eapply sep_loop_fail2; [apply K | apply LL | eapply p2, E'].
      * rewrite dump_app, <- app_assoc. change (dump pre' ++ _) with (upto_lit pre' is8 m d).
        erewrite sep_loop_more; [| apply K | apply LL | apply p1; eapply leads_cut; eassumption
          | rewrite (app_length (dump (e x))); lia].
        eapply h2, E'.
Qed.
End Many.

Lemma flat_map_W_nil {A} (g : A -> list op) : flat_map g [] = [].
Proof. reflexivity. Qed.

Lemma P_many0 {A} (p : parser A) (e : A -> list op) l fe f :
  (forall x, In x l -> P p (e x) x fe /\ lead1 fe (e x)) ->
  (forall b, f b = true -> fe b = true) -> Rj p [] f ->
  P (many0 p) (flat_map e l) l f.
Proof.
  intros He L R. rewrite <- (app_nil_r (flat_map e l)).
  eapply P_ext; [| eapply (P_many0_bind p e l (fun l => ret l)); [exact He | exact L | exact R | apply P_ret]].
  intros i. unfold bind. destruct (many0 p i); reflexivity.
Qed.
Lemma P_many1 {A} (p : parser A) (e : A -> list op) l fe f : l <> [] ->
  (forall x, In x l -> P p (e x) x fe /\ lead1 fe (e x)) ->
  (forall b, f b = true -> fe b = true) -> Rj p [] f ->
  P (many1 p) (flat_map e l) l f.
Proof.
  intros N He L R. destruct l as [|x l]; [congruence|]. cbn [flat_map]. unfold many1.
  eapply P_bind; [apply He; now left | |].
  - destruct l as [|y l]; [exact L|]. cbn [flat_map]. apply lead1_leads, He. right. now left.
  - rewrite <- (app_nil_r (flat_map e l)).
    eapply (P_many0_bind p e l (fun l => ret (x :: l))); [| exact L | exact R | apply P_ret].
    intros y Hy. apply He. now right.
Qed.

Lemma join_cons {A} sep (e : A -> list op) x l :
  join sep e (x :: l) = e x ++ flat_map (fun y => sep ++ e y) l.
Proof.
  revert x. induction l as [|y l IH]; intros x; [cbn; now rewrite app_nil_r|].
  change (join sep e (x :: y :: l)) with (e x ++ sep ++ join sep e (y :: l)).
  rewrite IH. cbn [flat_map]. now rewrite <- app_assoc.
Qed.

Lemma P_sep1 {A C} (p : parser A) (sep : parser C) so c (e : A -> list op) l fe f : l <> [] ->
  so <> [] -> P sep (W so) c any -> fe (hd_error so) = true ->
  (forall x, In x l -> P p (e x) x fe) ->
  (forall b, f b = true -> fe b = true) -> Rj sep [] f ->
  P (sep_list1 sep p) (join (W so) e l) l f.
Proof.
  intros N Nso Ps Fs He L R. destruct l as [|x l]; [congruence|]. rewrite join_cons. unfold sep_list1.
  eapply P_bind; [apply He; now left | |].
  - destruct l as [|y l]; [exact L|]. cbn [flat_map]. destruct so; [congruence|]. exact Fs.
  - rewrite <- (app_nil_r (flat_map _ l)).
    eapply P_sep_loop_bind; [exact Nso | exact Ps | exact Fs | | exact L | exact R | apply P_ret].
    intros y Hy. apply He. now right.
Qed.
Lemma sep0_sep1 {A C} (sep : parser C) (p : parser A) i r a : p i = ROk r a ->
  sep_list0 sep p i = sep_list1 sep p i.
Proof. intros E. unfold sep_list0, sep_list1, bind, ret. rewrite E. reflexivity. Qed.
Lemma P_sep0 {A C} (p : parser A) (sep : parser C) so c (e : A -> list op) l fe f :
  so <> [] -> P sep (W so) c any -> fe (hd_error so) = true ->
  (forall x, In x l -> P p (e x) x fe) ->
  (forall b, f b = true -> fe b = true) -> Rj sep [] f -> Rj p [] f ->
  P (sep_list0 sep p) (join (W so) e l) l f.
Proof.
  intros Nso Ps Fs He L R Rp.
  destruct l as [|x l].
  { destruct Rp as [r1 _]. split.
    - intros s Hs. specialize (r1 s Hs). cbn [join]. rewrite dump_nil in *; cbn [app] in *. unfold sep_list0. rewrite r1. reflexivity.
    - intros pre is8 m d post E. destruct (nil_cut _ _ _ _ _ E). }
  destruct (P_sep1 p sep so c e (x :: l) fe f ltac:(discriminate) Nso Ps Fs He L R) as [h1 h2].
  assert (Lx : leads fe (flat_map (fun y => W so ++ e y) l) f).
  { destruct l as [|y l]; [exact L|]. cbn [flat_map]. destruct so; [congruence|]. exact Fs. }
  rewrite join_cons in *.
  destruct (He x (or_introl eq_refl)) as [p1 p2]. split.
  - intros s Hs. rewrite <- h1 by exact Hs. eapply sep0_sep1.
    rewrite dump_app, <- app_assoc. apply p1. eapply leads_full; eassumption.
  - intros pre is8 m d post E.
    destruct (cut_app _ _ _ _ _ _ _ E) as [[post' E']|[pre' [-> E']]].
    + unfold sep_list0. erewrite p2 by exact E'. reflexivity.
    + erewrite <- h2 by exact E. eapply sep0_sep1.
      unfold upto_lit. rewrite dump_app, <- app_assoc. apply p1. eapply leads_cut; eassumption.
Qed.

(** Where messages end: texts that do not move the end of a message. *)

From Verif Require Import Bytes BytesFacts Dec Features Nom Types ValueSpec Grammar Fragmentizer FragSpec FragFacts SyncSpec.
Open Scope nat_scope.

(** ** Neutral starts of a line *)
Definition neutral (s : bytes) : Prop := ~ In bLF s /\ latest_after LOther s = LOther.

Lemma is_line_app s l : ~ In bLF s -> (is_line (s ++ l) <-> is_line l).
Proof.
  intros N. split.
  - intros (t & E & H). destruct (@exists_last _ l) as (l' & b & ->).
    + intros ->. rewrite app_nil_r in E. apply N. rewrite E. apply in_or_app. right. now left.
    + rewrite app_assoc in E. apply app_inj_tail in E as [<- ->]. exists l'. split; [reflexivity |].
      intros K. apply H, in_or_app. now right.
  - intros (t & -> & H). exists (s ++ t). split; [now rewrite app_assoc |].
    intros K. apply in_app_or in K as [K | K]; contradiction.
Qed.
Lemma neutral_announces s l a : neutral s -> is_line l -> (announces (s ++ l) a <-> announces l a).
Proof.
  intros [_ N] (t & -> & _). rewrite app_assoc.
  pose proof (lf_result_spec t) as [H1 _]. pose proof (lf_result_spec (s ++ t)) as [H2 _].
  rewrite latest_after_app, N in H2. destruct (fst _) as [b |]; cbn [announcement_of] in *.
  - split; intros H.
    + now rewrite (announces_fun _ _ _ H H2).
    + now rewrite (announces_fun _ _ _ H H1).
  - split; intros H; exfalso; [now apply (H2 a) | now apply (H1 a)].
Qed.
Lemma message_neutral s x : neutral s -> message x -> message (s ++ x).
Proof.
  intros N [l L Q | l a d m L A E M].
  - apply message_last; [now apply is_line_app; [apply N |] |].
    intros a K. apply (Q a). now apply (neutral_announces s).
  - rewrite app_assoc. apply (message_more _ a); auto.
    + now apply is_line_app; [apply N |].
    + now apply neutral_announces.
Qed.
Lemma no_lf_prefix s t r r' : ~ In bLF s -> t ++ bLF :: r = s ++ r' -> exists t', t = s ++ t'.
Proof.
  revert t. induction s as [| b s IH]; intros t N E; [now exists t |].
  destruct t as [| c t]; cbn in E; injection E as E1 E.
  - subst b. exfalso. apply N. now left.
  - subst b. destruct (IH t) as (t' & ->); [intros K; apply N; now right | exact E |]. now exists t'.
Qed.
Lemma line_start s l r r' : ~ In bLF s -> is_line l -> l ++ r = s ++ r' -> exists l', l = s ++ l'.
Proof.
  intros N (t & -> & _) E. rewrite <- app_assoc in E. cbn [app] in E.
  apply no_lf_prefix in E as (t' & ->); [| exact N]. exists (t' ++ [bLF]). now rewrite app_assoc.
Qed.
Lemma message_neutral_cut s d r r' : neutral s -> message d -> d ++ r = s ++ r' ->
  exists d', d = s ++ d' /\ message d'.
Proof.
  intros N [l L Q | l a x m L A E M] H.
  - destruct (line_start s l r r') as (l' & ->); [apply N | assumption | assumption |].
    exists l'. apply is_line_app in L; [| apply N]. split; [reflexivity |]. apply message_last; [exact L |].
    intros a K. apply (Q a). now apply neutral_announces.
  - rewrite <- app_assoc in H.
    destruct (line_start s l _ r' (proj1 N) L H) as (l' & ->).
    apply is_line_app in L; [| apply N]. exists (l' ++ x ++ m). split; [now rewrite <- app_assoc |].
    apply (message_more _ a); auto. now apply (neutral_announces s).
Qed.

(** ** Literals *)
Lemma message_literal h s x a : is_line h -> announces h a -> lenN s = ann_length a -> message x ->
  message (h ++ s ++ x).
Proof. apply message_more. Qed.
Lemma app_same_length (a b c d : bytes) : length a = length b -> a ++ c = b ++ d -> a = b /\ c = d.
Proof.
  revert b. induction a as [| x a IH]; intros [| y b] L E; try discriminate L; [auto |].
  cbn in E. injection E as -> E. apply IH in E as [-> ->]; [auto | now injection L].
Qed.
Lemma message_inv_literal h a d y : is_line h -> announces h a -> message d -> forall r, d ++ r = h ++ y ->
  exists s m, d = h ++ s ++ m /\ lenN s = ann_length a /\ message m.
Proof.
  intros L A [l L' Q | l b x m L' B E M] r H.
  - apply line_prefix_fun in H as [-> _]; [now apply Q in A | assumption ..].
  - rewrite <- app_assoc in H. apply line_prefix_fun in H as [-> _]; [| assumption ..].
    rewrite (announces_fun _ _ _ B A) in *. eauto.
Qed.
Lemma message_literal_cut h s a d r r' : is_line h -> announces h a -> lenN s = ann_length a ->
  message d -> d ++ r = h ++ s ++ r' -> exists d', d = h ++ s ++ d' /\ message d'.
Proof.
  intros L A E M H. destruct (message_inv_literal h a d _ L A M r H) as (x & m & -> & Ex & Mm).
  exists m. split; [| exact Mm]. rewrite <- !app_assoc in H. apply app_inv_head in H.
  apply app_same_length in H as [-> _]; [reflexivity |]. unfold lenN in *. lia.
Qed.

(** ** A message is determined by any continuation of it. *)
Lemma message_line d : message d -> exists l r, d = l ++ r /\ is_line l.
Proof. intros [l L _ | l a x m L _ _ _]; [exists l, []; now rewrite app_nil_r | eauto]. Qed.
Lemma message_unique d : message d -> forall d' r r', message d' -> d ++ r = d' ++ r' -> d = d'.
Proof.
  induction 1 as [l L Q | l a x m L A E M IH]; intros d' r r' M' H.
  - destruct M' as [l' L' Q' | l' b x m L' B E M].
    + now apply line_prefix_fun in H as [-> _].
    + rewrite <- app_assoc in H. apply line_prefix_fun in H as [-> _]; [| assumption ..]. now apply Q in B.
  - rewrite <- !app_assoc in H.
    destruct (message_literal_cut l x a d' r' (m ++ r) L A E M' (eq_sym H)) as (d2 & -> & M2).
    rewrite <- !app_assoc in H. apply app_inv_head, app_inv_head in H.
    now rewrite (IH _ _ _ M2 H).
Qed.
Lemma message_has_lf d : message d -> In bLF d.
Proof.
  intros H. apply message_line in H as (l & r & -> & t & -> & _). rewrite <- app_assoc. apply in_or_app. right. now left.
Qed.
Lemma no_lf_unfinished i : ~ In bLF i -> unfinished i.
Proof. intros N m r -> M. apply N, in_or_app. left. now apply message_has_lf. Qed.

(** ** Calm texts: they may be followed by the rest of a message. *)
Definition plainb (b : byte) : bool := negb (beq b bLF) && negb (beq b bCR) && negb (beq b "{"%byte).
Definition on_line (b : byte) : bool := negb (beq b bLF).
Definition stopb (b : byte) : bool := beq b bDQ || beq b "]"%byte.
Section Calm.
Context {F : features}.
Inductive calm : bytes -> Prop :=
| calm_nil : calm []
| calm_plain b t : plainb b = true -> calm t -> calm (b :: t)
| calm_closed w b t : forallb on_line w = true -> stopb b = true -> calm t -> calm (w ++ b :: t)
| calm_literal h s a t : is_line h -> announces h a -> lenN s = ann_length a -> calm t -> calm (h ++ s ++ t).

Lemma on_line_lf w : forallb on_line w = true -> ~ In bLF w.
Proof. intros H K. rewrite forallb_forall in H. specialize (H _ K). discriminate. Qed.
Lemma lf_on_line w : ~ In bLF w -> forallb on_line w = true.
Proof.
  intros H. apply forallb_forall. intros b K. unfold on_line. destruct (beq_spec b bLF) as [-> |]; [contradiction | reflexivity].
Qed.
Lemma neutral_plain b : plainb b = true -> neutral [b].
Proof.
  intros H. split.
  - intros [-> | []]. discriminate.
  - unfold plainb in H. apply andb_true_iff in H as [H H3]. apply andb_true_iff in H as [H1 H2].
    apply negb_true_iff in H1, H2, H3. cbn. now rewrite H1, H2, H3.
Qed.
Lemma neutral_closed w b : forallb on_line w = true -> stopb b = true -> neutral (w ++ [b]).
Proof.
  intros H S. split.
  - intros K. apply in_app_or in K as [K | [-> | []]]; [now apply on_line_lf in K | discriminate].
  - rewrite latest_after_snoc. unfold stopb in S. apply orb_true_iff in S as [S | S];
      destruct (beq_spec b bDQ), (beq_spec b "]"%byte); try discriminate; subst b;
      destruct (latest_after LOther w); reflexivity.
Qed.
Lemma calm_app a b : calm a -> calm b -> calm (a ++ b).
Proof.
  induction 1 as [| x t P C IH | w x t W S C IH | h s n t L A E C IH]; intros H.
  - exact H.
  - apply calm_plain; auto.
  - rewrite <- app_assoc. apply calm_closed; auto.
  - rewrite <- !app_assoc. apply (calm_literal h s n); auto.
Qed.
Lemma calm_message t x : calm t -> message x -> message (t ++ x).
Proof.
  induction 1 as [| b t P C IH | w b t W S C IH | h s n t L A E C IH]; intros H.
  - exact H.
  - apply (message_neutral [b]); [now apply neutral_plain | auto].
  - rewrite <- app_assoc. change (w ++ (b :: t) ++ x) with (w ++ [b] ++ t ++ x). rewrite app_assoc.
    apply message_neutral; [now apply neutral_closed | auto].
  - rewrite <- !app_assoc. apply (message_more _ n); auto.
Qed.
Lemma calm_cut t d : calm t -> forall r r', message d -> d ++ r = t ++ r' -> exists d', d = t ++ d' /\ message d'.
Proof.
  intros C. revert d. induction C as [| b t P C IH | w b t W S C IH | h s n t L A E C IH]; intros d r r' M H.
  - now exists d.
  - destruct (message_neutral_cut [b] d r (t ++ r')) as (d1 & -> & M1); [now apply neutral_plain | exact M | exact H |].
    cbn in H. injection H as H. destruct (IH _ _ _ M1 H) as (d2 & -> & M2). now exists d2.
  - rewrite <- app_assoc in H. change (w ++ (b :: t) ++ r') with (w ++ [b] ++ t ++ r') in H. rewrite app_assoc in H.
    destruct (message_neutral_cut (w ++ [b]) d r (t ++ r')) as (d1 & -> & M1); [now apply neutral_closed | exact M | exact H |].
    rewrite <- app_assoc in H. apply app_inv_head in H. destruct (IH _ _ _ M1 H) as (d2 & -> & M2).
    exists d2. split; [| exact M2]. rewrite <- !app_assoc. reflexivity.
  - rewrite <- !app_assoc in H.
    destruct (message_literal_cut h s n d r (t ++ r') L A E M H) as (d1 & -> & M1).
    rewrite <- !app_assoc in H. apply app_inv_head, app_inv_head in H.
    destruct (IH _ _ _ M1 H) as (d2 & -> & M2). exists d2. split; [now rewrite <- !app_assoc | exact M2].
Qed.
Lemma calm_unfinished t r : calm t -> unfinished r -> unfinished (t ++ r).
Proof.
  intros C U m rest E M. destruct (calm_cut t m C rest r M (eq_sym E)) as (d & -> & Md).
  rewrite <- app_assoc in E. apply app_inv_head in E. exact (U d rest E Md).
Qed.
Lemma calm_plains w : forallb plainb w = true -> calm w.
Proof.
  induction w as [| b w IH]; intros H; [apply calm_nil |]. cbn in H. apply andb_true_iff in H as [H1 H2].
  apply calm_plain; auto.
Qed.
Lemma plain_on_line w : forallb plainb w = true -> forallb on_line w = true.
Proof. apply forallb_impl. intros b H. unfold plainb in H. now apply andb_true_iff in H as [H _]; apply andb_true_iff in H as [H _]. Qed.

(** The header of a literal *)
Lemma header_line d mode e : d <> [] -> forallb is_digit d = true -> (dval d <= 4294967295)%N -> eol e ->
  is_line (bs "{" ++ d ++ plus_of mode ++ bs "}" ++ e) /\
  announces (bs "{" ++ d ++ plus_of mode ++ bs "}" ++ e) (mkAnn mode (dval d)).
Proof.
  intros N D M E. split.
  - assert (X : exists t, bs "{" ++ d ++ plus_of mode ++ bs "}" ++ e = t ++ [bLF] /\ forallb on_line t = true).
    { assert (Hd : forallb on_line d = true).
      { revert D. apply forallb_impl. apply byte_impl. vm_compute. reflexivity. }
      assert (Hm : forallb on_line (plus_of mode) = true) by now destruct mode.
      destruct E as [-> | [_ ->]].
      - exists (bs "{" ++ d ++ plus_of mode ++ bs "}" ++ [bCR]). split; [now rewrite <- !app_assoc |].
        rewrite !forallb_app, Hd, Hm. reflexivity.
      - exists (bs "{" ++ d ++ plus_of mode ++ bs "}"). split; [now rewrite <- !app_assoc |].
        rewrite !forallb_app, Hd, Hm. reflexivity. }
    destruct X as (t & -> & X). exists t. split; [reflexivity | now apply on_line_lf].
  - exists [], d, e. cbn [app ann_mode ann_length]. repeat split; auto.
    destruct E as [-> | [_ ->]]; auto.
Qed.
Lemma header_unfinished h a s : is_line h -> announces h a -> (lenN s < ann_length a)%N \/ s = [] ->
  unfinished (h ++ s).
Proof.
  intros L A H m r E M. destruct (message_inv_literal h a m s L A M r (eq_sym E)) as (x & y & -> & Ex & My).
  rewrite <- !app_assoc in E. apply app_inv_head in E. destruct H as [H | ->].
  - subst s. unfold lenN in *. rewrite app_length in H. lia.
  - symmetry in E. apply app_eq_nil in E as [_ E]. apply app_eq_nil in E as [-> _]. now apply message_has_lf in My.
Qed.
End Calm.

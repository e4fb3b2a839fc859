(** Linear bounds for the parsers of body structures (body.rs). *)

From Verif Require Import Bytes BytesFacts Dec Features Nom Types Utf8 Conv ParseCore ParseBody QuotedFacts
  OkCore CostNom CostCore CostBody CostErase CostFacts CostTac CostLin CostLin2.
From Coq Require Import Lia.

Local Open Scope nat_scope.

(** ** Quoted words *)

Definition plain (x : byte) : bool := is_text_char x && negb (beq x bDQ) && negb (beq x bBS).
Lemma plain_escape w : forallb plain w = true -> escape_quoted w = w /\ quoted_ok w = true.
Proof.
  intros H. rewrite escape_quoted_flat. unfold quoted_ok. induction w as [|x w IH]; [auto|].
  cbn in H. apply andb_true_iff in H as [Hx H]. destruct (IH H) as [I1 I2].
  unfold plain in Hx. apply andb_true_iff in Hx as [Hx X2]. apply andb_true_iff in Hx as [X0 X1].
  apply negb_true_iff in X1, X2. cbn. rewrite I1, I2, X0. unfold esc_char, is_quoted_specials.
  rewrite X1, X2. auto.
Qed.
Lemma string_word {F : features} w r : forallb plain w = true ->
  exists v c, q_string (bDQ :: w ++ bDQ :: r) = (ROk r v, c).
Proof.
  intros H. destruct (plain_escape w H) as [E Q].
  pose proof (er_string (bDQ :: w ++ bDQ :: r)) as X. unfold p_string in X.
  pose proof (p_quoted_read w r Q) as Y. rewrite E in Y.
  cbn [Nom.alt] in X. unfold Nom.orp, Nom.pmap, Nom.bind, Nom.ret in X. rewrite Y in X.
  destruct (q_string (bDQ :: w ++ bDQ :: r)) as [y c]. cbn in X. subst y. eauto.
Qed.
Lemma pm_split p q i : pm (p ++ q) i = true ->
  exists w j, i = w ++ j /\ length w = length p /\ pm p w = true /\ pm q j = true.
Proof.
  revert i; induction p as [|s p IH]; intros i H; [exists [], i; auto|].
  destruct i as [|x i]; [discriminate|]. cbn [app pm] in H. apply andb_true_iff in H as [H1 H2].
  destruct (IH i H2) as (w & j & -> & L & P & Q). exists (x :: w), j. cbn. rewrite L, H1. auto.
Qed.
Lemma pm_plain p w : forallb (forallb plain) p = true -> length w = length p -> pm p w = true ->
  forallb plain w = true.
Proof.
  revert w; induction p as [|s p IH]; intros [|x w] H L P; try discriminate; [reflexivity|].
  cbn in *. apply andb_true_iff in H as [H1 H2]. apply andb_true_iff in P as [P1 P2].
  apply mem_in in P1. rewrite forallb_forall in H1. rewrite (H1 x P1). cbn. apply IH; auto.
Qed.
Lemma pm_one c q i : pm ([c] :: q) i = true -> exists j, i = c :: j /\ pm q j = true.
Proof.
  destruct i as [|x i]; [discriminate|]. cbn. rewrite orb_false_r. intros H.
  apply andb_true_iff in H as [H1 H2]. apply beq_eq in H1. subst x. eauto.
Qed.

(** [alt] tries [body_type_basic] where [body_type_msg] or [body_type_text] failed: it reads
    the same strings again *)
Section Redo.
Context {F : features}.
Let sa := ca L_string.
Let sb := cb L_string.

Lemma string_word_cost w r : forallb plain w = true ->
  exists v c, q_string (bDQ :: w ++ bDQ :: r) = (ROk r v, c) /\ c <= sa * (length w + 2) + sb.
Proof.
  intros H. destruct (string_word w r H) as (v & c & E). exists v, c. split; [exact E|].
  pose proof (c_lin L_string (bDQ :: w ++ bDQ :: r)) as L. rewrite E in L.
  destruct L as (_ & _ & L). specialize (L eq_refl). fold sa sb in L.
  cbn [length] in L. rewrite app_length in L. cbn [length] in L. nia.
Qed.

Definition after_msg (ty sub : istring) : parser (basic_fields * specific_fields) :=
  sp ;;; b <- q_body_fields ;; ret (b, SFBasic ty sub).
Lemma align_msg i i1 u c : q_media_message i = (ROk i1 u, c) ->
  exists ty sub e, e <= sa * 17 + 2 * sb + 10 /\ length i = length i1 + 18 /\
    q_body_type_basic i = (fst (after_msg ty sub i1), snd (after_msg ty sub i1) + e).
Proof.
  intros H. apply kw_rest in H as [-> P].
  apply (cov_pm _ ([bDQ] :: map ci (bs "MESSAGE") ++ [bDQ] :: [bSP] :: [bDQ] :: map ci (bs "RFC822") ++ [[bDQ]]))
    in P; [|vm_compute; reflexivity].
  apply pm_one in P as (j & -> & P). apply pm_split in P as (w & j1 & -> & Lw & Pw & P).
  apply pm_one in P as (j2 & -> & P). apply pm_one in P as (j3 & -> & P). apply pm_one in P as (j4 & -> & P).
  apply pm_split in P as (w' & j5 & -> & Lw' & Pw' & P). apply pm_one in P as (j6 & -> & _).
  apply pm_plain in Pw; [|vm_compute; reflexivity|exact Lw].
  apply pm_plain in Pw'; [|vm_compute; reflexivity|exact Lw'].
  cbn in Lw, Lw'.
  assert (X : skipn (length (bs """MESSAGE"" ""RFC822""")) (bDQ :: w ++ bDQ :: bSP :: bDQ :: w' ++ bDQ :: j6) = j6).
  { destruct w as [|? [|? [|? [|? [|? [|? [|? [|? w]]]]]]]]; try discriminate Lw.
    destruct w' as [|? [|? [|? [|? [|? [|? [|? w']]]]]]]; try discriminate Lw'. reflexivity. }
  rewrite X. destruct (string_word_cost w (bSP :: bDQ :: w' ++ bDQ :: j6) Pw) as (ty & c1 & E1 & C1).
  destruct (string_word_cost w' j6 Pw') as (sub & c2 & E2 & C2). rewrite Lw in C1. rewrite Lw' in C2.
  exists ty, sub, (c1 + c2 + 4). split; [lia|]. split; [cbn [length]; rewrite !app_length; cbn [length];
    rewrite app_length; cbn [length]; lia|].
  unfold q_body_type_basic. unfold bind at 1. rewrite E1. unfold bind at 1. unfold sp at 1, char at 1.
  cbn [sat]. rewrite beq_refl. unfold bind at 1. rewrite E2. fold (after_msg ty sub).
  destruct (after_msg ty sub j6) as [y d]. cbn [fst snd]. f_equal. lia.
Qed.
Definition after_text (ty : istring) : parser (basic_fields * specific_fields) :=
  sub <- q_string ;; sp ;;; b <- q_body_fields ;; ret (b, SFBasic ty sub).
Lemma align_text i i1 u c : tag_no_case (bs """TEXT"" ") i = (ROk i1 u, c) ->
  exists ty e, e <= sa * 6 + sb + 10 /\ length i = length i1 + 7 /\
    q_body_type_basic i = (fst (after_text ty i1), snd (after_text ty i1) + e).
Proof.
  intros H. apply kw_rest in H as [-> P].
  apply (cov_pm _ ([bDQ] :: map ci (bs "TEXT") ++ [bDQ] :: [[bSP]]))
    in P; [|vm_compute; reflexivity].
  apply pm_one in P as (j & -> & P). apply pm_split in P as (w & j1 & -> & Lw & Pw & P).
  apply pm_one in P as (j2 & -> & P). apply pm_one in P as (j3 & -> & P).
  apply pm_plain in Pw; [|vm_compute; reflexivity|exact Lw].
  cbn in Lw.
  assert (X : skipn (length (bs """TEXT"" ")) (bDQ :: w ++ bDQ :: bSP :: j3) = j3).
  { destruct w as [|? [|? [|? [|? [|? w]]]]]; try discriminate Lw. reflexivity. }
  rewrite X. destruct (string_word_cost w (bSP :: j3) Pw) as (ty & c1 & E1 & C1). rewrite Lw in C1.
  exists ty, (c1 + 3). split; [lia|]. split; [cbn [length]; rewrite !app_length; cbn [length]; lia|].
  unfold q_body_type_basic. unfold bind at 1. rewrite E1. unfold bind at 1. unfold sp at 1, char at 1.
  cbn [sat]. rewrite beq_refl. fold (after_text ty).
  destruct (after_text ty j3) as [y d]. cbn [fst snd]. f_equal. lia.
Qed.
End Redo.

#[export] Instance L_body_type_basic {F : features} : cst q_body_type_basic [] [[[bDQ; "{"%byte]]].
Proof. named q_body_type_basic. Qed.
#[export] Typeclasses Opaque q_body_type_basic.
#[export] Instance L_media_text {F : features} :
  cst q_media_text [] [pat_ci (bs """TEXT"" ") ++ [[bDQ; "{"%byte]]].
Proof. named q_media_text. Qed.
#[export] Instance L_body_type_text {F : features} : cst q_body_type_text [] [pat_ci (bs """TEXT"" ")].
Proof. named q_body_type_text. Qed.

(** ** Text and basic bodies *)
Definition text_tail (sub : istring) (b : basic_fields) : parser (basic_fields * specific_fields) :=
  sp ;;; n <- q_number ;; ret (b, SFText sub n).
#[export] Instance L_text_tail sub b : cst (text_tail sub b) [] [[[bSP]; bd]].
Proof. named text_tail. Qed.
Lemma lin_text_tail : {ab : nat * nat | forall sub b,
  lin (text_tail sub b) [] (fst ab) (snd ab) /\ grd (text_tail sub b) [[[bSP]; bd]] (snd ab)}.
Proof.
  eexists (_, _ + _). intros sub b. cbn [fst snd]. split.
  - eapply lin_ab; [unfold text_tail; solve [ln]|apply Nat.le_refl|]. apply Nat.le_add_r.
  - eapply grd_weak; [unfold text_tail; solve [gr]|ckd|]. apply Nat.le_add_l.
Qed.

(** linear arithmetic over products with lengths *)
Ltac lir := rewrite ?Nat.mul_add_distr_r in *; lia.
Ltac mono a x y := pose proof (Nat.mul_le_mono_l (length x) (length y) a ltac:(lia)).

Lemma lin_text_basic {F : features} : {ab : nat * nat |
  lin (orp q_body_type_text q_body_type_basic) [[[bSP]; bd]] (fst ab) (snd ab)}.
Proof.
  destruct lin_text_tail as [[ta tb] HT]. cbn [fst snd] in HT.
  set (sa := ca L_string). set (sb := cb L_string).
  pose proof (c_lin L_string : lin q_string [] sa sb) as HS.
  set (fa := ca L_body_fields). set (fb := cb L_body_fields).
  pose proof (c_lin L_body_fields : lin q_body_fields [] fa fb) as HF.
  set (xa := ca L_body_type_text). set (xb := cb L_body_type_text).
  pose proof (c_lin L_body_type_text : lin q_body_type_text [] xa xb) as HX.
  set (ba := ca L_body_type_basic). set (bb := cb L_body_type_basic).
  pose proof (c_lin L_body_type_basic : lin q_body_type_basic [] ba bb) as HB.
  clearbody sa sb fa fb xa xb ba bb.
  exists (sa + fa + xa + ba, sb + fb + xb + bb + tb + 30). cbn [fst snd].
  intros i. unfold orp. specialize (HX i). destruct (q_body_type_text i) as [[r x| | | |] c] eqn:EX.
  2, 4, 5: lir.
  - destruct HX as (X1 & X2 & X3). split; [exact X1|]. split; [lir|]. intros _. specialize (X3 eq_refl).
    mono sa r i. mono fa r i. mono ba r i. lir.
  - specialize (HB i). destruct (q_body_type_basic i) as [[r x| | | |] d] eqn:EB; [|lir..].
    destruct HB as (B1 & B2 & B3). specialize (B3 eq_refl). split; [exact B1|]. split; [lir|]. intros Hr.
    mono sa r i. mono fa r i. mono ba r i. mono xa r i.
    assert (C : c + sa * length r + fa * length r <= sa * length i + fa * length i + sb + fb + tb + 25); [|lir].
    clear HX B2 B3.
    unfold q_body_type_text, q_media_text in EX. unfold bind at 1 in EX. unfold bind at 1 in EX.
    pose proof (lin_kw (bs """TEXT"" ") i) as LK.
    destruct (tag_no_case (bs """TEXT"" ") i) as [[i1 u| | | |] k] eqn:EK; try discriminate EX.
    2: { injection EX as <-. cbn in LK. lia. }
    destruct (align_text _ _ _ _ EK) as (ty & e & He & Hl & EA). clear He. rewrite EB in EA.
    unfold after_text in EA. unfold bind at 1 in EA. specialize (HS i1).
    destruct (q_string i1) as [[i2 sub| | | |] c1] eqn:ES; try discriminate EA.
    destruct HS as (S1 & S2 & S3). specialize (S3 eq_refl).
    unfold bind in EX at 1. unfold bind at 1 in EA. unfold sp in EX at 1. unfold sp in EA at 1.
    destruct (char bSP i2) as [[i3 y| | | |] c2] eqn:ESP; try discriminate EA.
    assert (P : c2 = 1 /\ length i2 = S (length i3)).
    { unfold char, sat in ESP. destruct i2 as [|z i2]; [discriminate|]. destruct (beq z bSP); [|discriminate].
      injection ESP as <- _ <-. auto. }
    destruct P as [-> P]. unfold bind in EX at 1. unfold bind in EA at 1. specialize (HF i3).
    destruct (q_body_fields i3) as [[i4 b| | | |] c3] eqn:EF; try discriminate EA.
    destruct HF as (F1 & F2 & F3). specialize (F3 eq_refl). cbn in EA. injection EA as <- _ _.
    fold (text_tail sub b) in EX. destruct (HT sub b) as [_ HG]. destruct (HG _ Hr) as [_ G].
    destruct (text_tail sub b r) as [y5 c5]. cbn in G. cbn in EX. injection EX as -> <-.
    destruct LK as (_ & LK & _). cbn in LK. mono sa i1 i. mono sa r i2. mono fa i3 i. lia.
Qed.

(** ** Messages, texts and basic bodies *)
Definition msg_tail {F : features} (pb : nat -> parser body_structure) (b : basic_fields)
  : parser (basic_fields * specific_fields) :=
  sp ;;; e <- q_envelope ;; sp ;;; s <- pb 7 ;; sp ;;; n <- q_number ;; ret (b, SFMessage e s n).
Lemma lin_then {A B} (p : parser A) (f : A -> parser B) S2 a1 a b1 b2 :
  lin p [] a1 b1 -> a1 <= a -> (forall x, lin (f x) S2 a b2) -> lin (bind p f) S2 a (b1 + b2 + 1).
Proof.
  intros H Ha K. apply (lin_ab _ _ _ _ a b1) in H; [|lia..]. intros i. unfold bind. specialize (H i).
  destruct (p i) as [[r x| | | |] c]; try lia. destruct H as (H1 & H2 & H3). specialize (H3 eq_refl).
  specialize (K x r). destruct (f x r) as [[r' y| | | |] d]; [|lia..].
  destruct K as (K1 & K2 & K3). split; [lia|]. split; [lia|]. intros HS. specialize (K3 HS). lia.
Qed.
Lemma lin_msg_tail {F : features} : {ab : nat * nat | forall pb b A,
  lin (pb 7) [] A 4 -> fst ab <= A ->
  lin (msg_tail pb b) [] A (snd ab) /\ grd (msg_tail pb b) [[[bSP]; ["("%byte]]] (snd ab)}.
Proof.
  exists (ca L_envelope + ca L_number, cb L_envelope + cb L_number + cg L_envelope + 30).
  intros pb b A HP HA. cbn [fst snd] in *. unfold msg_tail. split.
  - eapply lin_ab; [|apply Nat.le_refl|].
    + eapply lin_then; [apply lin_char|lia|intros _]. eapply lin_then; [apply (c_lin L_envelope)|lia|intros e].
      eapply lin_then; [apply lin_char|lia|intros _]. eapply lin_then; [exact HP|lia|intros s].
      eapply lin_then; [apply lin_char|lia|intros _]. eapply lin_then; [apply (c_lin L_number)|lia|intros n].
      eapply lin_ab; [apply lin_ret|lia|apply Nat.le_refl].
    + lia.
  - eapply grd_weak; [apply grd_char_bind; intros _; apply grd_bind, (c_grd L_envelope)|ckd|]. lia.
Qed.

Lemma media_sus {F : features} i i1 u c : q_media_message i = (ROk i1 u, c) ->
  sus [pat_ci (bs """TEXT"" ")] i = false.
Proof.
  intros H. apply kw_rest in H as [_ P]. apply (disj_sus [pat_ci (bs """MESSAGE"" ""RFC822""")]); [ckd|].
  unfold sus. cbn [existsb]. now rewrite P.
Qed.
Lemma lin_1part_alt {F : features} : {ab : nat * nat | forall pb A,
  lin (pb 7) [] A 4 -> fst ab <= A ->
  lin (orp (q_body_type_msg pb) (orp q_body_type_text q_body_type_basic))
    [[[bSP]; ["("%byte]]; [[bSP]; bd]] A (snd ab)}.
Proof.
  destruct lin_msg_tail as [[ta tb] HT]. cbn [fst snd] in HT.
  destruct lin_text_basic as [[xa xb] HX]. cbn [fst snd] in HX.
  set (sa := ca L_string). set (sb := cb L_string).
  set (fa := ca L_body_fields). set (fb := cb L_body_fields).
  pose proof (c_lin L_body_fields : lin q_body_fields [] fa fb) as HF.
  set (gx := cg L_body_type_text).
  pose proof (c_grd L_body_type_text : grd q_body_type_text [pat_ci (bs """TEXT"" ")] gx) as HG.
  set (ba := ca L_body_type_basic). set (bb := cb L_body_type_basic).
  pose proof (c_lin L_body_type_basic : lin q_body_type_basic [] ba bb) as HB.
  exists (ta + fa + xa + ba, tb + xb + sa * 17 + 2 * sb + fb + gx + bb + 100). cbn [fst snd].
  intros pb A HP HA. specialize (fun b => HT pb b A HP ltac:(lia)).
  pose proof (fun i i1 u c => @align_msg F i i1 u c) as AL. fold sa sb in AL.
  clearbody sa sb fa fb gx ba bb. clear HP. intros i.
  set (T2 := orp q_body_type_text q_body_type_basic) in *. unfold orp at 1.
  unfold q_body_type_msg. unfold bind at 1.
  pose proof (lin_kw (bs """MESSAGE"" ""RFC822""") i) as LK. fold q_media_message in LK.
  pose proof (media_sus i) as SM. specialize (AL i).
  replace (length (bs """MESSAGE"" ""RFC822""")) with 18 in LK by reflexivity.
  assert (W : forall y : nat, xa * y <= A * y) by (intros; apply Nat.mul_le_mono_r; lia).
  assert (Wf : forall y : nat, fa * y + xa * y + ba * y <= A * y)
    by (intros; rewrite <- !Nat.mul_add_distr_r; apply Nat.mul_le_mono_r; lia).
  assert (V : forall x y, x <= y -> xa * y + A * x <= A * y + xa * x)
    by (intros x y Hxy; pose proof (Nat.mul_le_mono_r xa A (y - x) ltac:(lia));
        rewrite !Nat.mul_sub_distr_l in *; pose proof (Nat.mul_le_mono_l x y xa Hxy);
        pose proof (Nat.mul_le_mono_l x y A Hxy); lia).
  assert (Vf : forall x y, x <= y -> fa * y + ba * y + A * x <= A * y + fa * x + ba * x)
    by (intros x y Hxy; pose proof (Nat.mul_le_mono_r (fa + ba) A (y - x) ltac:(lia));
        rewrite !Nat.mul_sub_distr_l in *; pose proof (Nat.mul_le_mono_l x y (fa + ba) Hxy);
        pose proof (Nat.mul_le_mono_l x y A Hxy); lir).
  destruct (q_media_message i) as [[i1 u| | | |] k] eqn:EK.
  2, 4, 5: lia.
  2: { specialize (HX i). fold T2 in HX. destruct (T2 i) as [[r x| | | |] d]; [|specialize (W (length i)); lia..].
       destruct HX as (X1 & X2 & X3). split; [exact X1|]. split; [specialize (W (length i)); lia|].
       intros HS. assert (HS' : sus [[[bSP]; bd]] r = false).
       { unfold sus in *. cbn [existsb] in *. now apply orb_false_iff in HS as [_ HS]. }
       specialize (X3 HS'). specialize (V _ _ X1). lia. }
  specialize (SM _ _ _ eq_refl). destruct (AL _ _ _ eq_refl) as (ty & sub & e & He & Hl & EB). clear AL.
  (* what the other alternatives do here *)
  assert (TT : exists d, d <= gx + 1 /\
    (T2 i = (fst (q_body_type_basic i), d + snd (q_body_type_basic i)) \/
     isok (fst (T2 i)) = false /\ snd (T2 i) <= d)).
  { unfold T2, orp. destruct (HG i SM) as [G1 G2].
    destruct (q_body_type_text i) as [[r x| | | |] c]; cbn [fst snd isok] in *; [discriminate| |
      |exists (S c); split; [lia|right; split; [reflexivity|cbn; lia]]..].
    - exists (S c). split; [lia|right; split; [reflexivity|cbn; lia]].
    - exists (S c). split; [lia|left]. destruct (q_body_type_basic i) as [y d]. cbn. f_equal. }
  destruct TT as (d & Hd & TT). clear HX SM.
  assert (NOK : forall z c, q_body_type_basic i = (z, c) -> isok z = false ->
    snd (T2 i) <= d + c /\ isok (fst (T2 i)) = false).
  { intros z c Eb Hz. rewrite Eb in TT. cbn [fst snd] in TT. destruct TT as [TT|[T1 T3]].
    - rewrite TT. auto.
    - split; [lia|exact T1]. }
  assert (OK : forall r x c, q_body_type_basic i = (ROk r x, c) -> T2 i = (ROk r x, d + c) \/
    snd (T2 i) <= d + c /\ isok (fst (T2 i)) = false).
  { intros r x c Eb. rewrite Eb in TT. cbn [fst snd] in TT. destruct TT as [TT|[T1 T3]]; [auto|].
    right. split; [lia|exact T1]. }
  clear TT HG. destruct (after_msg ty sub i1) as [ay ac] eqn:EM. cbn [fst snd] in EB.
  unfold after_msg in EM. unfold bind at 1 in EM.
  unfold bind at 1. unfold sp at 1. unfold sp in EM at 1.
  destruct LK as (_ & LK & _).
  assert (C2 : snd (char bSP i1) <= 1).
  { unfold char, sat. destruct i1 as [|z i1]; [cbn; lia|]. destruct (beq z bSP); cbn; lia. }
  destruct (char bSP i1) as [[i2 y| | | |] c2] eqn:ESP; cbn [snd] in C2.
  2, 4, 5: lia.
  2: { injection EM as <- <-. destruct (NOK _ _ EB eq_refl) as [N1 N2]. cbn [snd] in N1. destruct (T2 i) as [[r x| | | |] d2];
       cbn [fst snd isok] in *; [discriminate|lia..]. }
  assert (P : length i1 = S (length i2)).
  { unfold char, sat in ESP. destruct i1 as [|z i1]; [discriminate|]. destruct (beq z bSP); [|discriminate].
    now injection ESP as <- _ <-. }
  pose proof (Wf (length i)) as Wi. mono fa i2 i.
  unfold bind in EM at 1. unfold bind at 1. specialize (HF i2).
  destruct (q_body_fields i2) as [[i3 b| | | |] c3] eqn:EF.
  2, 4, 5: lia.
  2: { injection EM as <- <-. destruct (NOK _ _ EB eq_refl) as [N1 N2]. cbn [snd] in N1. specialize (HB i).
       rewrite EB in HB. cbn [fst snd] in HB.
       destruct (T2 i) as [[r x| | | |] d2]; cbn [fst snd isok] in *; [discriminate|lia..]. }
  destruct HF as (F1 & F2 & F3). specialize (F3 eq_refl). cbn in EM. injection EM as <- <-.
  fold (msg_tail pb b). destruct (HT b) as [HY HGY]. specialize (HY i3). specialize (HGY i3).
  pose proof (Vf (length i3) (length i) ltac:(lia)) as Vi. mono ba i3 i.
  destruct (msg_tail pb b i3) as [[r x| | | |] c4]; cbn [fst snd] in HGY.
  2, 4, 5: lia.
  - destruct HY as (Y1 & Y2 & Y3). specialize (Y3 eq_refl). split; [lia|]. split; [lia|]. intros _. lia.
  - specialize (HB i). rewrite EB in HB. destruct HB as (B1 & B2 & B3). specialize (B3 eq_refl).
    destruct (OK _ _ _ EB) as [O|[N1 N2]].
    + rewrite O. split; [exact B1|]. split; [lia|]. intros HS. assert (HS' : sus [[[bSP]; ["("%byte]]] i3 = false).
      { unfold sus in *. cbn [existsb] in *. apply orb_false_iff in HS as [HS _]. now rewrite orb_false_r. }
      destruct (HGY HS') as [_ Hc]. lia.
    + destruct (T2 i) as [[r x| | | |] d2]; cbn [fst snd isok] in *; [discriminate|lia..].
Qed.

(** ** Nested bodies *)

(** [q] takes fewer than [a] steps per consumed byte, or fails *)
Definition eat {A} (q : parser A) (a b : nat) : Prop := forall i,
  match q i with
  | (ROk r _, c) => length r < length i /\ c + 1 + a * length r <= a * length i
  | (_, c) => c <= a * length i + b
  end.
Lemma lin_eat {A} (q : parser A) a b : eat q a b -> lin q [] a b.
Proof. intros H i. specialize (H i). destruct (q i) as [[r x| | | |] c]; lia. Qed.
Lemma lin_many0_f_eat {A} (p : parser A) G a b bg n : eat p a b -> grd p G bg ->
  lin (many0_f n p) G a (b + bg + 1).
Proof.
  intros H Hg. induction n as [|n IH]; intros i; [cbn; lia|]. cbn [many0_f].
  specialize (H i). specialize (Hg i). destruct (p i) as [[r x| | | |] c]; try lia.
  - destruct H as [H1 H2]. rewrite (proj2 (Nat.ltb_lt _ _) H1). specialize (IH r).
    destruct (many0_f n p r) as [[r' l| | | |] d]; [|lia..]. destruct IH as (I1 & I2 & I3).
    split; [lia|]. split; [lia|]. intros HS. specialize (I3 HS). lia.
  - split; [lia|]. split; [lia|]. intros HS. destruct (Hg HS) as [_ Y]. cbn in Y. lia.
Qed.
Lemma lin_many1_eat {A} (p : parser A) G a b bg : eat p a b -> grd p G bg ->
  lin (many1 p) G a (b + bg + 5).
Proof.
  intros H Hg i. unfold many1, bind. pose proof (H i) as Hp.
  destruct (p i) as [[r y| | | |] c]; try lia. destruct Hp as (H1 & H2).
  pose proof (lin_many0_f_eat _ _ _ _ _ (S (length r)) H Hg r) as L. fold (many0 p) in L.
  change (many0_f (S (length r)) p r) with (many0 p r) in L.
  destruct (many0 p r) as [[r' l| | | |] e]; cbn [ret]; [|lia..]. destruct L as (I1 & I2 & I3).
  split; [lia|]. split; [lia|]. intros HS. specialize (I3 HS). lia.
Qed.

Definition opt_ext1 {F : features} (b : basic_fields) (s : specific_fields) : parser body_structure :=
  x <- opt (sp ;;; q_body_ext_1part) ;; ret (BSSingle b s x).
Lemma lin_ext1 {F : features} : {ab : nat * nat | forall b s,
  lin (opt_ext1 b s) [[[bSP]]] (fst ab) (snd ab) /\
  idle (opt_ext1 b s) [[[bSP]; ["("%byte]]; [[bSP]; bd]] (snd ab)}.
Proof.
  eexists (_, _ + _). intros b s. cbn [fst snd]. unfold opt_ext1. split.
  - eapply lin_ab; [eapply lin_S; [solve [ln]|ckd]|apply Nat.le_refl|apply Nat.le_add_r].
  - intros i Hi. eassert (X : idle (x <- opt (sp ;;; q_body_ext_1part) ;; ret (BSSingle b s x))
      [[[bSP]; ["("%byte]]; [[bSP]; bd]] _) by solve [idle_tac].
    destruct (X i Hi) as [X1 X2]. split; [|exact X2]. eapply Nat.le_trans; [exact X1|apply Nat.le_add_l].
Qed.
Definition mpart_tail {F : features} (l : list body_structure) : parser body_structure :=
  sp ;;; sub <- q_string ;; x <- opt (sp ;;; q_body_ext_mpart) ;; ret (BSMulti l sub x).
Lemma lin_mpart_tail {F : features} : {ab : nat * nat | forall l,
  lin (mpart_tail l) [[[bSP]]] (fst ab) (snd ab) /\
  grd (mpart_tail l) [[[bSP]]] (snd ab)}.
Proof.
  eexists (_, _ + _). intros l. cbn [fst snd]. unfold mpart_tail. split.
  - eapply lin_ab; [eapply lin_S; [solve [ln]|ckd]|apply Nat.le_refl|apply Nat.le_add_r].
  - eapply grd_weak; [solve [gr]|ckd|apply Nat.le_add_l].
Qed.
Lemma grd_1part {F : features} : {k : nat | forall pb n,
  grd (q_body_type_1part pb n) [[[bDQ; "{"%byte]]] k}.
Proof.
  exists (cg L_body_type_basic + cg L_body_type_text + 40). intros pb [|n]; cbn [q_body_type_1part].
  - eapply grd_weak; [apply grd_pfail|ckd|lia].
  - unfold q_body_type_msg, q_media_message. cbn [alt].
    eapply grd_weak; [apply grd_bind, grd_orp; [apply grd_bind, grd_kw|
      apply grd_orp; [apply (c_grd L_body_type_text)|apply (c_grd L_body_type_basic)]]|ckd|].
    cbn. lia.
Qed.

Lemma lin_inner {F : features} : {ab : nat * nat | forall pb n A,
  (forall n, eat (pb n) A 4) -> (forall n, grd (pb n) [[["("%byte]]] 4) -> fst ab <= A ->
  lin (alt [q_body_type_1part pb n; q_body_type_mpart pb n]) [[[bSP]]] A (snd ab)}.
Proof.
  destruct lin_1part_alt as [[pa pc] HP]. destruct lin_ext1 as [[ea eb] HE].
  destruct lin_mpart_tail as [[ma mb] HM]. destruct grd_1part as [k HK]. cbn [fst snd] in *.
  exists (pa + ea + ma, pc + eb + eb + mb + mb + k + 60). cbn [fst snd]. intros pb n A Hb Hg HA.
  specialize (HK pb n).
  assert (L1 : lin (q_body_type_1part pb n) [[[bSP]]] A (pc + eb + eb + 1)).
  { destruct n as [|n]; cbn [q_body_type_1part];
      [eapply lin_weak; [apply lin_pfail|ckd|lia..]|].
    eapply lin_S with (S := [[[bSP]; ["("%byte]]; [[bSP]; bd]] ++ [[[bSP]]]); [|ckd].
    eapply lin_ab; [eapply lin_bind_idle with (a1 := A) (a2 := A) (b2 := eb)| |].
    - apply HP; [apply lin_eat, Hb|lia].
    - intros [b s]. apply HE.
    - intros [b s]. eapply lin_ab; [apply HE|lia|lia].
    - lia.
    - lia. }
  assert (L2 : lin (q_body_type_mpart pb n) [[[bSP]]] A (4 + 4 + 5 + 2 + mb + mb + 1)).
  { destruct n as [|n]; cbn [q_body_type_mpart];
      [eapply lin_weak; [apply lin_pfail|ckd|lia..]|].
    eapply lin_ab; [eapply lin_bind with (S1 := [[["("%byte]]]) (a1 := A) (a2 := A) (G := [[[bSP]]])| |].
    - apply lin_vecn. apply lin_many1_eat with (b := 4) (bg := 4); auto.
    - intros l. eapply lin_ab; [apply HM|lia|apply Nat.le_refl].
    - intros l. apply HM.
    - ckd.
    - lia.
    - lia. }
  assert (G2 : grd (q_body_type_mpart pb n) [[["("%byte]]] 7).
  { destruct n as [|n]; cbn [q_body_type_mpart]; [eapply grd_weak; [apply grd_pfail|ckd|lia]|].
    eapply grd_weak; [apply grd_bind, grd_vecn, grd_many1; auto|ckd|cbn; lia]. }
  cbn [alt]. eapply lin_weak; [eapply lin_orp0; [exact L1|exact HK|exact L2|exact G2|ckd]|ckd|lia|lia].
Qed.
Lemma grd_body_f {F : features} fuel n : grd (q_body_f fuel n) [[["("%byte]]] 4.
Proof.
  destruct fuel as [|fuel]; cbn [q_body_f]; [eapply grd_weak; [apply grd_panic|ckd|lia]|].
  destruct n as [|n]; [eapply grd_weak; [apply grd_pfail|ckd|lia]|].
  unfold delimited. eapply grd_weak; [apply grd_bind, grd_tag|ckd|cbn; lia].
Qed.
Definition body_slope {F : features} : nat :=
  let '(a, b) := proj1_sig lin_inner in a + b + 40.
Lemma eat_body_f {F : features} fuel : forall n, eat (q_body_f fuel n) body_slope 4.
Proof.
  unfold body_slope. destruct lin_inner as [[a b] H]. cbn [proj1_sig fst snd] in *.
  set (A := a + b + 40). induction fuel as [|fuel IH]; intros n i; cbn [q_body_f]; [cbn; lia|].
  destruct n as [|n]; [cbn; lia|]. specialize (H (q_body_f fuel) n A IH (grd_body_f fuel) ltac:(lia)).
  set (q := alt [q_body_type_1part (q_body_f fuel) n; q_body_type_mpart (q_body_f fuel) n]) in *.
  clearbody q. unfold delimited, bind. destruct i as [|x i]; [cbn; lia|].
  cbn [tag bs String.list_byte_of_string]. cbn.
  destruct (beq x "("%byte); [|cbn; lia]. cbn [tick]. specialize (H i). cbn [length].
  replace (A * S (length i)) with (A * length i + (a + b + 40)) by (unfold A; lia).
  destruct (q i) as [[r y| | | |] c]; [|lia..]. destruct H as (H1 & H2 & H3).
  destruct r as [|z r]; [cbn; lia|]. destruct (beq z ")"%byte) eqn:Ez; [|cbn; lia]. cbn.
  apply beq_eq in Ez. subst z. specialize (H3 eq_refl). cbn [length] in *. lia.
Qed.
#[export] Instance L_body {F : features} n : cst (q_body n) [] [[["("%byte]]].
Proof.
  apply (mkC body_slope 4 4).
  - intros i. apply (lin_eat _ _ _ (eat_body_f (S (length i)) n)).
  - intros i Hi. exact (grd_body_f (S (length i)) n i Hi).
Qed.
#[export] Typeclasses Opaque q_body.

(** Proofs about the fragmentizer. *)

From Verif Require Import Bytes Nom BytesFacts Features Utf8 Types Conv EncodeCtx Encode EncodeFacts
  Decode
  Fragmentizer FragSpec.

Ltac dif := match goal with |- context[if ?c then _ else _] => destruct c end.

(** ** Feeding more bytes commutes with parsing *)

Lemma line_parse_some_app p i x p' n f :
  line_parse p i = (p', n, Some f) -> line_parse p (i ++ x) = (p', n, Some f) /\ n <= length i.
Proof.
  revert p p' n; induction i as [|b i IH]; intros p p' n; cbn [line_parse app]; [discriminate|].
  destruct (line_step (lp_latest p) b) as [lb [[ann e]|]].
  - intros [= <- <- <-]. split; [reflexivity | cbn; lia].
  - destruct (line_parse _ i) as [[p'' k] g] eqn:E. intros [= <- <- ->].
    apply IH in E as [-> ?]. split; [reflexivity | cbn; lia].
Qed.

Lemma line_parse_none_app p i x p' n :
  line_parse p i = (p', n, None) ->
  n = length i /\
  line_parse p (i ++ x) = (let '(p'', m, f) := line_parse p' x in (p'', n + m, f)).
Proof.
  revert p p' n; induction i as [|b i IH]; intros p p' n; cbn [line_parse app].
  - intros [= <- <-]. split; [reflexivity|]. now destruct (line_parse p x) as [[? ?] ?].
  - destruct (line_step (lp_latest p) b) as [lb [[ann e]|]]; [discriminate|].
    destruct (line_parse _ i) as [[p'' k] g] eqn:E. intros [= <- <- ->].
    apply IH in E as [-> ->]. split; [reflexivity|].
    now destruct (line_parse p'' x) as [[? ?] ?].
Qed.

Lemma parse_fragment_some_app p i x p' n f :
  parse_fragment p i = (p', n, Some f) ->
  parse_fragment p (i ++ x) = (p', n, Some f) /\ n <= length i.
Proof.
  destruct p as [lp|tp]; cbn [parse_fragment].
  - destruct (line_parse lp i) as [[lp' k] g] eqn:E. intros [= <- <- ->].
    now apply (line_parse_some_app _ _ x) in E as [-> ?].
  - unfold literal_parse. rewrite lenN_app.
    destruct (N.ltb_spec (lenN i) (tp_remaining tp)); [discriminate|].
    intros [= <- <- <-]. destruct (N.ltb_spec (lenN i + lenN x) (tp_remaining tp)); [lia|].
    split; [reflexivity|]. unfold lenN in *. lia.
Qed.

Lemma parse_fragment_none_app p i x p' n :
  parse_fragment p i = (p', n, None) ->
  n = length i /\
  parse_fragment p (i ++ x) = (let '(p'', m, f) := parse_fragment p' x in (p'', n + m, f)).
Proof.
  destruct p as [lp|tp]; cbn [parse_fragment].
  - destruct (line_parse lp i) as [[lp' k] g] eqn:E. intros [= <- <- ->].
    apply (line_parse_none_app _ _ x) in E as [-> ->]. split; [reflexivity|]. cbn [parse_fragment].
    now destruct (line_parse lp' x) as [[? ?] ?].
  - unfold literal_parse. rewrite lenN_app.
    destruct (N.ltb_spec (lenN i) (tp_remaining tp)); [|discriminate].
    intros [= <- <-]. split; [reflexivity|]. cbn [parse_fragment]. unfold literal_parse.
    cbn [tp_remaining tp_start tp_end].
    destruct (N.ltb_spec (lenN i + lenN x) (tp_remaining tp)),
             (N.ltb_spec (lenN x) (tp_remaining tp - lenN i)); try lia.
    + now rewrite app_length, N.sub_add_distr, Nat.add_assoc.
    + assert (En : N.to_nat (tp_remaining tp)
                   = length i + N.to_nat (tp_remaining tp - lenN i)) by (unfold lenN in *; lia).
      rewrite En, Nat.add_assoc. reflexivity.
Qed.

Lemma set_parser_enqueue s x p : set_parser (enqueue s x) p = enqueue (set_parser s p) x.
Proof. reflexivity. Qed.
Lemma set_parser_dequeue s p n : set_parser (dequeue s n) p = dequeue (set_parser s p) n.
Proof.
  unfold dequeue; cbn. destruct (max_size s) as [m|]; [|reflexivity].
  dif; reflexivity.
Qed.
Lemma set_parser_twice s p q : set_parser (set_parser s p) q = set_parser s q.
Proof. reflexivity. Qed.

Lemma dequeue_enqueue s x n :
  n <= length (unparsed s) -> dequeue (enqueue s x) n = enqueue (dequeue s n) x.
Proof.
  intros H. unfold dequeue, enqueue; cbn.
  rewrite firstn_app_le, skipn_app_le by assumption.
  destruct (max_size s) as [m|]; [|reflexivity].
  dif; reflexivity.
Qed.

Lemma dequeue_all s : unparsed (dequeue s (length (unparsed s))) = [].
Proof.
  unfold dequeue. rewrite skipn_all.
  destruct (max_size s) as [m|]; [|reflexivity]. dif; reflexivity.
Qed.

Ltac rcbn := cbn [unparsed max_size exceeded poisoned buffer fparser_of app].

Lemma dequeue_dequeue s x m :
  dequeue (enqueue s x) (length (unparsed s) + m) =
  dequeue (enqueue (dequeue s (length (unparsed s))) x) m.
Proof.
  destruct s as [u mx ex po bu pa]. unfold dequeue, enqueue. cbn [unparsed max_size exceeded poisoned buffer fparser_of].
  rewrite firstn_all, skipn_all.
  assert (E1 : firstn (length u + m) (u ++ x) = u ++ firstn m x)
    by (rewrite firstn_app_ge by lia; repeat f_equal; lia).
  assert (E2 : skipn (length u + m) (u ++ x) = skipn m x).
  { rewrite skipn_app, skipn_all2 by lia. cbn [app]. f_equal. lia. }
  rewrite E1, E2.
  destruct mx as [size|]; rcbn; [|now rewrite app_assoc].
  destruct (Nat.ltb_spec (N.to_nat (size - lenN bu)) (length u)); rcbn.
  - destruct (Nat.ltb_spec (N.to_nat (size - lenN bu)) (length u + m)); [|lia].
    rewrite firstn_app_le by lia.
    assert (Z : N.to_nat (size - lenN (bu ++ firstn (N.to_nat (size - lenN bu)) u)) = 0).
    { rewrite lenN_app. unfold lenN at 2. rewrite firstn_length. lia. }
    rewrite Z. destruct m; cbn [Nat.ltb Nat.leb firstn skipn]; now rewrite app_nil_r.
  - assert (Z : N.to_nat (size - lenN (bu ++ u)) = N.to_nat (size - lenN bu) - length u).
    { rewrite lenN_app. unfold lenN at 2. lia. }
    rewrite Z.
    destruct (Nat.ltb_spec (N.to_nat (size - lenN bu)) (length u + m)),
      (Nat.ltb_spec (N.to_nat (size - lenN bu) - length u) m); try lia.
    + f_equal. rewrite firstn_app_ge by lia. now rewrite app_assoc.
    + now rewrite app_assoc.
Qed.

Lemma progress_some_enqueue s x s' f :
  progress s = (s', Some f) -> progress (enqueue s x) = (enqueue s' x, Some f).
Proof.
  unfold progress.
  destruct (start_message s) as [s0 p] eqn:E0.
  assert (Es : start_message (enqueue s x) = (enqueue s0 x, p)).
  { unfold start_message in *. cbn. destruct (fparser_of s); now inversion E0. }
  rewrite Es. cbn [enqueue unparsed].
  destruct (parse_fragment p (unparsed s0)) as [[p' n] [g|]] eqn:E; [|discriminate].
  apply (parse_fragment_some_app _ _ x) in E as [-> Hn].
  intros [= <- <-]. f_equal. rewrite set_parser_enqueue, dequeue_enqueue by exact Hn. reflexivity.
Qed.

Lemma progress_none_unparsed s s' : progress s = (s', None) -> unparsed s' = [].
Proof.
  unfold progress. destruct (start_message s) as [s0 p].
  destruct (parse_fragment p (unparsed s0)) as [[p' n] [g|]] eqn:E; [discriminate|].
  intros [= <-]. apply (parse_fragment_none_app _ _ []) in E as [-> _].
  apply (dequeue_all (set_parser s0 (Some p'))).
Qed.

Lemma unparsed_enqueue s x : unparsed (enqueue s x) = unparsed s ++ x.
Proof. reflexivity. Qed.

Lemma progress_none_enqueue s x s' :
  progress s = (s', None) -> progress (enqueue s x) = progress (enqueue s' x).
Proof.
  unfold progress.
  destruct (start_message s) as [s0 p] eqn:E0.
  assert (Es : start_message (enqueue s x) = (enqueue s0 x, p)).
  { unfold start_message in *. cbn. destruct (fparser_of s); now inversion E0. }
  rewrite Es, unparsed_enqueue.
  destruct (parse_fragment p (unparsed s0)) as [[p' n] [g|]] eqn:E; [discriminate|].
  apply (parse_fragment_none_app _ _ x) in E as [-> ->].
  intros [= <-].
  remember (set_parser s0 (Some p')) as s1 eqn:Es1.
  assert (Eu : unparsed s0 = unparsed s1) by now subst s1.
  assert (Hp : start_message (enqueue (dequeue s1 (length (unparsed s0))) x)
               = (enqueue (dequeue s1 (length (unparsed s0))) x, p')).
  { subst s1. unfold start_message, dequeue; cbn. destruct (max_size s0); [|reflexivity].
    dif; reflexivity. }
  rewrite Hp, unparsed_enqueue, Eu, dequeue_all. cbn [app].
  destruct (parse_fragment p' x) as [[p'' m] f].
  assert (D : dequeue (set_parser (enqueue s0 x) (Some p'')) (length (unparsed s1) + m)
            = dequeue (set_parser (enqueue (dequeue s1 (length (unparsed s1))) x) (Some p'')) m).
  { rewrite <- !set_parser_dequeue. rewrite <- dequeue_dequeue. rewrite !set_parser_dequeue.
    subst s1. reflexivity. }
  rewrite D. reflexivity.
Qed.

Lemma observe_enqueue s x f : observe (enqueue s x) f = observe s f.
Proof. reflexivity. Qed.

Lemma enqueue_app s x y : enqueue (enqueue s x) y = enqueue s (x ++ y).
Proof. unfold enqueue; cbn. now rewrite app_assoc. Qed.
Lemma enqueue_nil s : enqueue s [] = s.
Proof. destruct s; unfold enqueue; cbn. now rewrite app_nil_r. Qed.

(** A history of feeding and parsing followed by draining is the same as feeding everything
    at once and draining. *)
Lemma drains_one_shot ops : feeds ops -> forall s x s1 o1 o2 s',
  run s ops = (s1, o1) -> drains (enqueue s1 x) o2 s' ->
  drains (enqueue s (fed ops ++ x)) (o1 ++ o2) s'.
Proof.
  induction 1 as [|o ops Ho Hops IH]; intros s x s1 o1 o2 s' R D; cbn in R.
  - injection R as <- <-. exact D.
  - destruct (step s o) as [sa oa] eqn:Es. destruct (run sa ops) as [sb ob] eqn:Er.
    injection R as <- <-. specialize (IH _ _ _ _ _ _ Er D).
    destruct o as [y| | |]; try contradiction; cbn in Es.
    + injection Es as <- <-. change (fed (Enqueue y :: ops)) with (y ++ fed ops). cbn [app].
      rewrite enqueue_app in IH. rewrite <- app_assoc. exact IH.
    + change (fed (Progress :: ops)) with (fed ops).
      destruct (progress s) as [sp [f|]] eqn:Ep; injection Es as <- <-.
      * cbn [app]. rewrite <- (observe_enqueue sp (fed ops ++ x)).
        eapply drains_some; [apply progress_some_enqueue, Ep | exact IH].
      * cbn [app]. pose proof (progress_none_enqueue s (fed ops ++ x) _ Ep) as K.
        inversion IH; subst; [eapply drains_none|eapply drains_some; [|eassumption]];
          rewrite K; assumption.
Qed.

Lemma drains_fun s o1 s1 o2 s2 : drains s o1 s1 -> drains s o2 s2 -> o1 = o2 /\ s1 = s2.
Proof.
  intros H; revert o2 s2; induction H as [s s' E|s sa f obs s' E D IH]; intros o2 s2 H2;
    destruct H2 as [s s2 E2|s sb g obs2 s2 E2 D2]; rewrite E in E2; try discriminate E2.
  - split; congruence.
  - injection E2 as <- <-. apply IH in D2 as [-> ->]. auto.
Qed.

Lemma run_drain_one_shot s ops obs s' :
  feeds ops -> run_drain s ops obs s' -> drains (enqueue s (fed ops)) obs s'.
Proof.
  intros Hf (s1 & o1 & o2 & R & D & ->).
  rewrite <- (app_nil_r (fed ops)).
  eapply drains_one_shot; [exact Hf | exact R | now rewrite enqueue_nil].
Qed.

(** ** Termination: every state drains *)

Lemma line_parse_consumes p i p' n f : line_parse p i = (p', n, Some f) -> 1 <= n.
Proof.
  revert p p' n; induction i as [|b i IH]; intros p p' n; cbn; [discriminate|].
  destruct (line_step (lp_latest p) b) as [lb [[ann e]|]].
  - intros [= <- <- <-]. lia.
  - destruct (line_parse _ i) as [[p'' k] g]. intros [= <- <- ->]. lia.
Qed.

Definition pending (s : fragmentizer) : nat :=
  2 * length (unparsed s) + match fparser_of s with Some (PLiteral _) => 1 | _ => 0 end.

Lemma dequeue_unparsed s n : unparsed (dequeue s n) = skipn n (unparsed s).
Proof.
  unfold dequeue. destruct (max_size s); [|reflexivity]. dif; reflexivity.
Qed.

Lemma progress_pending s s' f : progress s = (s', Some f) -> pending s' < pending s.
Proof.
  unfold progress. destruct (start_message s) as [s0 p] eqn:E0.
  assert (Hu : unparsed s0 = unparsed s /\
    (p = match fparser_of s with Some p => p | None => PLine (new_line_parser 0) end)).
  { unfold start_message in E0. destruct (fparser_of s); inversion E0; subst; auto. }
  destruct Hu as [Hu Hp]. rewrite Hu.
  destruct (parse_fragment p (unparsed s)) as [[p' n] [g|]] eqn:E; [|discriminate].
  intros [= <- <-]. unfold pending. cbn [set_parser unparsed fparser_of].
  rewrite dequeue_unparsed. cbn [set_parser unparsed]. rewrite Hu.
  pose proof (parse_fragment_some_app _ _ [] _ _ _ E) as [_ Hn].
  rewrite skipn_length.
  destruct p as [lp|tp]; cbn [parse_fragment] in E.
  - destruct (line_parse lp (unparsed s)) as [[lp' k] h] eqn:El. injection E as <- <- ->.
    apply line_parse_consumes in El.
    destruct (next_parser g) as [[|]|]; lia.
  - unfold literal_parse in E.
    match type of E with context[if ?c then _ else _] => destruct c end; [discriminate|]. injection E as <- <- <-.
    cbn [next_parser]. destruct (fparser_of s) as [[|]|]; try discriminate. lia.
Qed.

Lemma drains_total s : exists obs s', drains s obs s'.
Proof.
  remember (pending s) as k eqn:Ek. revert s Ek.
  induction k as [k IH] using lt_wf_ind; intros s ->.
  destruct (progress s) as [s1 [f|]] eqn:E.
  - destruct (IH _ (progress_pending _ _ _ E) s1 eq_refl) as (obs & s' & D).
    eexists _, _. eapply drains_some; eassumption.
  - eexists _, _. apply drains_none, E.
Qed.

Lemma run_drain_total s ops : exists obs s', run_drain s ops obs s'.
Proof.
  destruct (run s ops) as [s1 o1] eqn:R. destruct (drains_total s1) as (o2 & s' & D).
  exists (o1 ++ o2), s', s1, o1, o2. auto.
Qed.

(** ** The line automaton *)

Definition latest_after (lb : latest_byte) (t : bytes) : latest_byte :=
  fold_left (fun lb b => fst (line_step lb b)) t lb.

Lemma line_step_no_lf lb b : b <> bLF -> snd (line_step lb b) = None.
Proof.
  intros H. apply beq_neq in H. unfold line_step.
  destruct lb; rewrite H;
  repeat match goal with |- context[if ?c then _ else _] => destruct c end; try reflexivity.
  destruct (push_digit _ _); reflexivity.
Qed.

Definition lf_result (lb : latest_byte) : option announcement * line_ending :=
  match lb with
  | LClosing a => (Some a, Lf)
  | LCr a => (a, CrLf)
  | _ => (None, Lf)
  end.
Lemma line_step_lf lb : line_step lb bLF = (LOther, Some (lf_result lb)).
Proof. destruct lb; reflexivity. Qed.

Lemma line_parse_no_lf i : ~ In bLF i -> forall p,
  line_parse p i =
    (mkLineParser (lp_start p) (lp_end p + length i) (latest_after (lp_latest p) i), length i, None).
Proof.
  induction i as [|b i IH]; intros H p; cbn [line_parse length].
  - destruct p; cbn. now rewrite Nat.add_0_r.
  - assert (Hb : b <> bLF) by (intros ->; apply H; now left).
    pose proof (line_step_no_lf (lp_latest p) b Hb) as K.
    destruct (line_step (lp_latest p) b) as [lb fin] eqn:E. cbn in K. subst fin.
    rewrite IH by (intros ?; apply H; now right). cbn [lp_start lp_end lp_latest].
    unfold latest_after. cbn [fold_left]. rewrite E. cbn [fst]. do 3 f_equal. lia.
Qed.

Lemma line_parse_lf t r : ~ In bLF t -> forall p,
  line_parse p (t ++ bLF :: r) =
    let '(ann, ending) := lf_result (latest_after (lp_latest p) t) in
    let stop := lp_end p + S (length t) in
    (mkLineParser (lp_start p) stop LOther, S (length t), Some (FLine (lp_start p) stop ann ending)).
Proof.
  induction t as [|b t IH]; intros H p; cbn [app line_parse length].
  - rewrite line_step_lf. cbn [latest_after fold_left].
    destruct (lf_result (lp_latest p)) as [ann e]. do 3 f_equal; [f_equal; lia| f_equal; lia].
  - assert (Hb : b <> bLF) by (intros ->; apply H; now left).
    pose proof (line_step_no_lf (lp_latest p) b Hb) as K.
    destruct (line_step (lp_latest p) b) as [lb fin] eqn:E. cbn in K. subst fin.
    rewrite IH by (intros ?; apply H; now right). cbn [lp_start lp_end lp_latest].
    unfold latest_after. cbn [fold_left]. rewrite E. cbn [fst].
    destruct (lf_result _) as [ann e].
    replace (S (lp_end p) + S (length t)) with (lp_end p + S (S (length t))) by lia. reflexivity.
Qed.

(** What the automaton state says about the bytes read so far. *)
Definition opened (t : bytes) (ds : bytes) : Prop :=
  exists pre, t = pre ++ bs "{" ++ ds /\ forallb is_digit ds = true /\ (dval ds <= u32_max)%N.
Definition closed (t : bytes) (a : announcement) : Prop :=
  exists ds tl, t = tl ++ plus_of (ann_mode a) ++ bs "}" /\ opened tl ds /\ ds <> [] /\
                ann_length a = dval ds.
Definition state_means (lb : latest_byte) (t : bytes) : Prop :=
  match lb with
  | LOther => True
  | LOpening => opened t []
  | LDigit n => exists ds, opened t ds /\ ds <> [] /\ n = dval ds
  | LPlus n => exists ds tl, t = tl ++ bs "+" /\ opened tl ds /\ ds <> [] /\ n = dval ds
  | LClosing a => closed t a
  | LCr (Some a) => exists tl, t = tl ++ [bCR] /\ closed tl a
  | LCr None => exists tl, t = tl ++ [bCR]
  end.

Lemma push_digit_spec n b :
  push_digit n b = (let y := (10 * n + digit_val b)%N in
                    if N.leb y u32_max then Some y else None).
Proof.
  unfold push_digit, digit_of, digit_val. cbv zeta.
  replace (n * 10)%N with (10 * n)%N by lia.
  destruct (N.leb_spec (10 * n) u32_max); [reflexivity|].
  destruct (N.leb_spec (10 * n + (bN b - 48)) u32_max); [lia|reflexivity].
Qed.

Lemma opened_snoc t ds b : opened t ds -> is_digit b = true ->
  (dval (ds ++ [b]) <= u32_max)%N -> opened (t ++ [b]) (ds ++ [b]).
Proof.
  intros (pre & -> & Hd & _) Hb Hv. exists pre. split; [|split; [|exact Hv]].
  - rewrite <- !app_assoc. reflexivity.
  - rewrite forallb_app, Hd. cbn. now rewrite Hb.
Qed.

Lemma state_means_step lb t b : state_means lb t -> state_means (fst (line_step lb b)) (t ++ [b]).
Proof.
  intros H.
  assert (Hopen : opened (t ++ ["{"%byte]) []).
  { exists t. split; [reflexivity|]. split; [reflexivity|]. cbn. lia. }
  assert (Hcr : state_means (LCr None) (t ++ [bCR])) by (exists t; reflexivity).
  assert (Hdig : forall ds, opened t ds -> is_digit b = true ->
                 (dval (ds ++ [b]) <= u32_max)%N ->
                 state_means (LDigit (dval (ds ++ [b]))) (t ++ [b])).
  { intros ds Ho D Hv. exists (ds ++ [b]). split; [now apply opened_snoc|].
    split; [destruct ds; discriminate|reflexivity]. }
  destruct lb as [| |n|n|a|ann]; unfold line_step;
  (destruct (beq_spec b bCR) as [->|_];
     [first [exact Hcr | exists t; split; [reflexivity|exact H]]|]);
  (destruct (beq_spec b bLF) as [->|_]; [exact I|]);
  (destruct (beq_spec b "{"%byte) as [->|_]; [exact Hopen|]); try exact I.
  - destruct (is_digit b) eqn:D; [|exact I].
    assert (V : digit_of b = dval ([] ++ [b])) by (unfold dval, digit_of, digit_val; cbn; lia).
    cbn [fst]. rewrite V. apply Hdig; [exact H | reflexivity|].
    assert (K : forall b, N.leb (dval ([] ++ [b])) u32_max = true)
      by (apply byte_forall; vm_compute; reflexivity).
    apply N.leb_le, K.
  - destruct (is_digit b) eqn:D.
    + rewrite push_digit_spec. cbv zeta.
      destruct (N.leb_spec (10 * n + digit_val b) u32_max) as [L|]; [|exact I].
      destruct H as (ds & Ho & Hn & ->). rewrite <- dval_snoc in *. cbn [fst]. now apply Hdig.
    + destruct H as (ds & Ho & Hn & ->).
      destruct (beq_spec b "+"%byte) as [->|_]; [exists ds, t; auto|].
      destruct (beq_spec b "}"%byte) as [->|_]; [exists ds, t; auto|exact I].
  - destruct (beq_spec b "}"%byte) as [->|_]; [|exact I].
    destruct H as (ds & tl & -> & Ho & Hn & ->). exists ds, tl.
    rewrite <- app_assoc. auto.
Qed.

Lemma latest_after_snoc lb t b : latest_after lb (t ++ [b]) = fst (line_step (latest_after lb t) b).
Proof. unfold latest_after. now rewrite fold_left_app. Qed.

Lemma latest_after_app lb t u : latest_after lb (t ++ u) = latest_after (latest_after lb t) u.
Proof. unfold latest_after. now rewrite fold_left_app. Qed.

Lemma state_means_after t : state_means (latest_after LOther t) t.
Proof.
  induction t as [|b t IH] using rev_ind; [exact I|].
  rewrite latest_after_snoc. now apply state_means_step.
Qed.

Lemma step_opening lb : fst (line_step lb "{"%byte) = LOpening.
Proof. destruct lb; reflexivity. Qed.

Lemma dval_app_le a b : (dval a <= dval (a ++ b))%N.
Proof.
  induction b as [|x b IH] using rev_ind; [rewrite app_nil_r; lia|].
  rewrite app_assoc, dval_snoc. lia.
Qed.

Lemma digit_class b : is_digit b = true ->
  beq b bCR = false /\ beq b bLF = false /\ beq b "{"%byte = false.
Proof.
  intros H.
  pose proof (byte_impl is_digit (fun b => negb (beq b bCR) && negb (beq b bLF) && negb (beq b "{"%byte))
    ltac:(vm_compute; reflexivity) b H) as K.
  cbv beta in K.
  destruct (beq b bCR), (beq b bLF), (beq b "{"%byte); try discriminate K; auto.
Qed.

Lemma latest_after_digits lb pre ds : forallb is_digit ds = true -> ds <> [] ->
  (dval ds <= u32_max)%N -> latest_after lb (pre ++ bs "{" ++ ds) = LDigit (dval ds).
Proof.
  induction ds as [|b ds IH] using rev_ind; [contradiction|].
  intros Hd _ Hv. rewrite !app_assoc, latest_after_snoc, <- app_assoc.
  rewrite forallb_app in Hd. apply andb_true_iff in Hd as [Hd Hb]. cbn in Hb.
  rewrite andb_true_r in Hb.
  destruct (digit_class b Hb) as (C1 & C2 & C3).
  assert (Hv' : (dval ds <= u32_max)%N) by (pose proof (dval_app_le ds [b]); lia).
  destruct ds as [|c ds].
  - rewrite app_nil_r, latest_after_app. cbn [bs latest_after fold_left].
    change (fold_left (fun lb b => fst (line_step lb b)) pre lb) with (latest_after lb pre).
    rewrite step_opening. cbn [line_step]. rewrite C1, C2, C3, Hb. cbn. f_equal.
  - rewrite IH by (assumption || discriminate). cbn [line_step].
    rewrite C1, C2, C3, Hb, push_digit_spec. cbv zeta.
    rewrite <- dval_snoc. apply N.leb_le in Hv. rewrite Hv. reflexivity.
Qed.

Lemma latest_after_closed lb t a : closed t a -> latest_after lb t = LClosing a.
Proof.
  intros (ds & tl & -> & (pre & -> & Hd & Hv) & Hn & E).
  destruct a as [m n]. cbn [ann_mode ann_length] in *. subst n.
  rewrite latest_after_app, latest_after_digits by assumption.
  destruct m; reflexivity.
Qed.

Lemma announces_iff t a :
  announces (t ++ [bLF]) a <-> closed t a \/ exists t', t = t' ++ [bCR] /\ closed t' a.
Proof.
  split.
  - intros (pre & ds & eol & E & He & Hn & Hd & El & Hv).
    assert (C : forall tl, tl = (pre ++ bs "{" ++ ds) ++ plus_of (ann_mode a) ++ bs "}" -> closed tl a).
    { intros tl ->. exists ds, (pre ++ bs "{" ++ ds). split; [reflexivity|].
      split; [exists pre; auto|]. auto. }
    destruct He as [-> | ->].
    + left. apply C. replace (pre ++ bs "{" ++ ds ++ plus_of (ann_mode a) ++ bs "}" ++ [bLF])
        with (((pre ++ bs "{" ++ ds) ++ plus_of (ann_mode a) ++ bs "}") ++ [bLF]) in E
        by now rewrite <- !app_assoc.
      now apply app_inj_tail in E as [-> _].
    + right. eexists; split; [|apply C; reflexivity].
      replace (pre ++ bs "{" ++ ds ++ plus_of (ann_mode a) ++ bs "}" ++ [bCR; bLF])
        with ((((pre ++ bs "{" ++ ds) ++ plus_of (ann_mode a) ++ bs "}") ++ [bCR]) ++ [bLF]) in E
        by now rewrite <- !app_assoc.
      now apply app_inj_tail in E as [-> _].
  - assert (C : forall tl eol, closed tl a -> eol = [bLF] \/ eol = [bCR; bLF] ->
                announces (tl ++ eol) a).
    { intros tl eol (ds & tl' & -> & (pre & -> & Hd & Hv) & Hn & El) He.
      exists pre, ds, eol. rewrite <- !app_assoc. auto 10. }
    intros [H|(t' & -> & H)]; [apply C; auto|]. rewrite <- app_assoc. apply C; auto.
Qed.

Lemma latest_after_cr lb t : latest_after lb (t ++ [bCR]) =
  LCr (match latest_after lb t with LClosing a => Some a | _ => None end).
Proof. rewrite latest_after_snoc. now destruct (latest_after lb t). Qed.

(** The automaton computes exactly the specified announcement and ending. *)
Lemma lf_result_spec t :
  announcement_of (t ++ [bLF]) (fst (lf_result (latest_after LOther t))) /\
  ending_of (t ++ [bLF]) (snd (lf_result (latest_after LOther t))).
Proof.
  pose proof (state_means_after t) as M.
  assert (Hnone : (forall a, latest_after LOther t <> LClosing a) ->
                  (forall a, latest_after LOther t <> LCr (Some a)) ->
                  forall a, ~ announces (t ++ [bLF]) a).
  { intros H1 H2 a Ha. apply announces_iff in Ha as [C|(t' & -> & C)].
    - eapply H1, latest_after_closed, C.
    - apply (H2 a). rewrite latest_after_cr, (latest_after_closed _ _ _ C). reflexivity. }
  assert (Hlf : (forall a, latest_after LOther t <> LCr a) ->
                ~ exists t', t ++ [bLF] = t' ++ [bCR; bLF]).
  { intros H (t' & E).
    replace (t' ++ [bCR; bLF]) with ((t' ++ [bCR]) ++ [bLF]) in E by now rewrite <- app_assoc.
    apply app_inj_tail in E as [-> _]. rewrite latest_after_cr in H. eapply H; reflexivity. }
  destruct (latest_after LOther t) as [| |n|n|a|[a|]] eqn:E; cbn [lf_result fst snd announcement_of ending_of];
    (split; [try (apply Hnone; discriminate) | try (apply Hlf; discriminate)]).
  - apply announces_iff. now left.
  - apply announces_iff. right. destruct M as (tl & -> & C). eauto.
  - destruct M as (tl & -> & C). exists tl. now rewrite <- app_assoc.
  - destruct M as (tl & ->). exists tl. now rewrite <- app_assoc.
Qed.

(** ** Draining follows the specification *)

Definition parser_for (start : nat) (e : expectation) : fparser :=
  match e with
  | ExpectLine => PLine (new_line_parser start)
  | ExpectLiteral n => PLiteral (new_literal_parser start n)
  end.

(** The state at the start of a fragment; [msg] is the message read so far. *)
Definition at_start (max : option N) (msg : bytes) (e : expectation) (s : fragmentizer) : Prop :=
  max_size s = max /\ fparser_of s = Some (parser_for (length msg) e) /\
  buffer s = limited max msg /\ exceeded s = too_long max msg /\ poisoned s = false.
Definition ready (max : option N) (msg : bytes) (e : expectation) (s : fragmentizer) : Prop :=
  at_start max msg e s \/
  (max_size s = max /\ fparser_of s = None /\ msg = [] /\ e = ExpectLine).

Lemma limited_nil max : limited max [] = [].
Proof. destruct max; cbn; [apply firstn_nil|reflexivity]. Qed.
Lemma too_long_nil max : too_long max [] = false.
Proof. destruct max; [apply N.ltb_ge; cbn; lia | reflexivity]. Qed.

Lemma start_ready max msg e s : ready max msg e s ->
  exists s0, start_message s = (s0, parser_for (length msg) e) /\ at_start max msg e s0 /\
             unparsed s0 = unparsed s.
Proof.
  unfold start_message. intros [H|(Hm & Hp & -> & ->)].
  - exists s. pose proof H as (? & -> & ?). auto.
  - rewrite Hp. eexists. split; [reflexivity|]. split; [|reflexivity].
    unfold at_start. cbn. rewrite limited_nil, too_long_nil. auto.
Qed.

Lemma dequeue_limited max msg s n :
  max_size s = max -> buffer s = limited max msg -> exceeded s = too_long max msg ->
  n <= length (unparsed s) ->
  let msg' := msg ++ firstn n (unparsed s) in
  let s' := dequeue s n in
  max_size s' = max /\ buffer s' = limited max msg' /\ exceeded s' = too_long max msg' /\
  poisoned s' = poisoned s /\ fparser_of s' = fparser_of s /\ unparsed s' = skipn n (unparsed s).
Proof.
  intros Hm Hb He Hn. cbv zeta. unfold dequeue. rewrite Hm.
  destruct max as [size|]; cbn [limited too_long] in *.
  - assert (El : N.to_nat (size - lenN (buffer s)) = N.to_nat size - length msg).
    { rewrite Hb. unfold lenN. rewrite firstn_length. lia. }
    rewrite El.
    destruct (Nat.ltb_spec (N.to_nat size - length msg) n); cbn.
    + repeat split; auto.
      * rewrite Hb. rewrite firstn_app. reflexivity.
      * symmetry. apply N.ltb_lt. unfold lenN. rewrite app_length, firstn_length. lia.
    + repeat split; auto.
      * rewrite Hb. rewrite firstn_app. f_equal. symmetry. apply firstn_all2.
        rewrite firstn_length. lia.
      * rewrite He. unfold lenN. rewrite app_length, firstn_length.
        destruct n as [|n]; [do 2 f_equal; lia|].
        apply eq_true_iff_eq. rewrite !N.ltb_lt. lia.
  - cbn. repeat split; auto. now rewrite Hb.
Qed.

Lemma fragment_bytes_slice s f :
  fragment_bytes s f = slice (fst (frag_range f)) (snd (frag_range f)) (buffer s).
Proof.
  unfold fragment_bytes, slice. destruct (frag_range f) as [a b]. cbn [fst snd].
  destruct (Nat.le_gt_cases a (length (buffer s))) as [L|G].
  - rewrite (Nat.min_l a) by lia.
    destruct (Nat.le_gt_cases b (length (buffer s))).
    + now rewrite (Nat.min_l b) by lia.
    + rewrite (Nat.min_r b) by lia. rewrite !firstn_all2; rewrite ?skipn_length; try lia. reflexivity.
  - rewrite (Nat.min_r a) by lia. rewrite skipn_all, (skipn_all2 (n:=a)) by lia.
    now rewrite !firstn_nil.
Qed.

Lemma split_lf (i : bytes) : ~ In bLF i \/ exists t r, i = t ++ bLF :: r /\ ~ In bLF t.
Proof.
  induction i as [|b i IH]; [now left|].
  destruct (beq_spec b bLF) as [->|Hb].
  - right. exists [], i. split; [reflexivity|intros []].
  - destruct IH as [H|(t & r & -> & H)].
    + left. intros [E|E]; [congruence|contradiction].
    + right. exists (b :: t), r. split; [reflexivity|]. intros [E|E]; [congruence|contradiction].
Qed.

(** One call of [progress] at the start of a fragment. *)
Lemma progress_ready max msg e s : ready max msg e s ->
  (exists f r s1, unparsed s = frag_bytes f ++ r /\
     progress s = (s1, Some (info_of (length msg) f)) /\
     (match e, f with
      | ExpectLine, Line l ann ending =>
          is_line l /\ announcement_of l ann /\ ending_of l ending
      | ExpectLiteral n, Literal d => lenN d = n
      | _, _ => False
      end) /\
     unparsed s1 = r /\ max_size s1 = max /\
     buffer s1 = limited max (msg ++ frag_bytes f) /\
     exceeded s1 = too_long max (msg ++ frag_bytes f) /\
     poisoned s1 = false /\
     is_message_complete s1 = ends_message f /\
     ready max (if ends_message f then [] else msg ++ frag_bytes f)
       (match f with Line _ ann _ => after_line ann | Literal _ => ExpectLine end) s1) \/
  ((match e with ExpectLine => ~ In bLF (unparsed s)
    | ExpectLiteral n => (lenN (unparsed s) < n)%N end) /\
   exists s1, progress s = (s1, None) /\ unparsed s1 = [] /\ max_size s1 = max /\
     buffer s1 = limited max (msg ++ unparsed s) /\
     exceeded s1 = too_long max (msg ++ unparsed s) /\
     poisoned s1 = false /\ is_message_complete s1 = false).
Proof.
  intros H. apply start_ready in H as (s0 & E0 & (Hm & Hp & Hb & He & Hpo) & Eu).
  unfold progress. rewrite E0, Eu. rewrite <- Eu. clear E0 Eu s. rename s0 into s.
  destruct e as [|n]; cbn [parser_for parse_fragment].
  - destruct (split_lf (unparsed s)) as [Hn|(t & r & Ei & Hn)].
    + right. split; [exact Hn|]. rewrite line_parse_no_lf by exact Hn.
      match goal with |- context[dequeue (set_parser s ?p)] =>
        pose proof (dequeue_limited max msg (set_parser s p) (length (unparsed s)) Hm Hb He (le_n _)) as K end.
      cbv zeta in K. cbn [set_parser unparsed] in K. rewrite firstn_all, skipn_all in K.
      destruct K as (? & ? & ? & ? & Hf & ?). eexists. split; [reflexivity|].
      unfold is_message_complete. rewrite Hf. cbn in *. intuition congruence.
    + left. rewrite Ei, line_parse_lf by exact Hn.
      pose proof (lf_result_spec t) as [Ha Hend]. cbn [new_line_parser lp_latest lp_end lp_start].
      destruct (lf_result (latest_after LOther t)) as [ann ending] eqn:R. cbn [fst snd] in Ha, Hend.
      assert (El : length (t ++ [bLF]) = S (length t)) by (rewrite app_length; cbn; lia).
      exists (Line (t ++ [bLF]) ann ending), r. eexists. cbn [frag_bytes info_of].
      split; [now rewrite <- app_assoc|]. rewrite El. split; [reflexivity|].
      split; [split; [now exists t|]; split; assumption|].
      match goal with |- context[dequeue (set_parser s ?p)] =>
        pose proof (dequeue_limited max msg (set_parser s p) (S (length t)) Hm Hb He) as K end.
      cbv zeta in K. cbn [set_parser unparsed] in K.
      assert (Ei' : unparsed s = (t ++ [bLF]) ++ r) by (rewrite Ei, <- app_assoc; reflexivity).
      rewrite Ei', <- El, firstn_app_exact, skipn_app_exact in K.
      rewrite <- El.
      destruct K as (K1 & K2 & K3 & K4 & K5 & K6); [rewrite (app_length (t ++ [bLF]) r); lia|].
      cbn [set_parser max_size buffer exceeded poisoned fparser_of unparsed].
      assert (L : length (msg ++ t ++ [bLF]) = length msg + length (t ++ [bLF])) by apply app_length.
      split; [exact K6|]. split; [exact K1|]. split; [exact K2|]. split; [exact K3|].
      split; [cbn in K4; congruence|].
      split; [destruct ann; reflexivity|].
      destruct ann as [a|]; cbn [next_parser ends_message].
      * left. unfold at_start. cbn [set_parser max_size buffer exceeded poisoned fparser_of unparsed after_line parser_for].
        rewrite L. cbn in K4. intuition congruence.
      * right. cbn. auto.
  - unfold literal_parse. cbn [new_literal_parser tp_remaining tp_start tp_end].
    destruct (N.ltb_spec (lenN (unparsed s)) n) as [L|L].
    + right. split; [exact L|].
      match goal with |- context[dequeue (set_parser s ?p)] =>
        pose proof (dequeue_limited max msg (set_parser s p) (length (unparsed s)) Hm Hb He (le_n _)) as K end.
      cbv zeta in K. cbn [set_parser unparsed] in K. rewrite firstn_all, skipn_all in K.
      destruct K as (? & ? & ? & ? & Hf & ?). eexists. split; [reflexivity|].
      unfold is_message_complete. rewrite Hf. cbn in *. intuition congruence.
    + left.
      assert (Ld : length (firstn (N.to_nat n) (unparsed s)) = N.to_nat n)
        by (rewrite firstn_length; unfold lenN in L; lia).
      exists (Literal (firstn (N.to_nat n) (unparsed s))), (skipn (N.to_nat n) (unparsed s)).
      eexists. cbn [frag_bytes info_of]. split; [symmetry; apply firstn_skipn|].
      rewrite Ld. split; [reflexivity|]. split; [unfold lenN; rewrite Ld; lia|].
      match goal with |- context[dequeue (set_parser s ?p)] =>
        pose proof (dequeue_limited max msg (set_parser s p) (N.to_nat n) Hm Hb He) as K end.
      cbv zeta in K. cbn [set_parser unparsed] in K.
      destruct K as (K1 & K2 & K3 & K4 & K5 & K6); [unfold lenN in L; lia|].
      cbn [set_parser max_size buffer exceeded poisoned fparser_of unparsed].
      split; [exact K6|]. split; [exact K1|]. split; [exact K2|]. split; [exact K3|].
      split; [cbn in K4; congruence|].
      split; [reflexivity|]. left. unfold at_start. cbn [next_parser ends_message set_parser max_size buffer exceeded poisoned fparser_of unparsed parser_for].
      rewrite app_length, Ld. cbn in K4. intuition congruence.
Qed.

Lemma info_range start f : frag_range (info_of start f) = (start, start + length (frag_bytes f)).
Proof. destruct f; reflexivity. Qed.

Lemma drains_spec s obs s' : drains s obs s' -> forall max msg e, ready max msg e s ->
  exists fs e' rest, splits e (unparsed s) fs e' rest /\ obs = expected max msg fs /\
    unparsed s' = [] /\ max_size s' = max /\
    message_bytes s' = limited max (current msg fs ++ rest) /\
    exceeded s' = too_long max (current msg fs ++ rest) /\
    poisoned s' = false /\ is_message_complete s' = false.
Proof.
  induction 1 as [s s' E|s s1 f obs s' E D IH]; intros max msg e R;
    pose proof (progress_ready _ _ _ _ R) as [(g & r & s2 & Eu & Ep & Hg & K)|(Hn & s2 & Ep & K)];
    rewrite E in Ep; try discriminate Ep.
  - injection Ep as <-. destruct K as (? & ? & ? & ? & ? & ?).
    exists [], e, (unparsed s). repeat split; auto.
    destruct e; constructor; exact Hn.
  - injection Ep as <- ->. destruct K as (Ku & Km & Kb & Ke & Kp & Kc & Kr).
    destruct (IH _ _ _ Kr) as (fs & e' & rest & Hs & -> & Hf).
    exists (g :: fs), e', rest. rewrite Eu.
    split; [|split].
    + destruct e, g; try contradiction; cbn [frag_bytes]; rewrite Ku in Hs.
      * destruct Hg as (? & ? & ?). now apply splits_line.
      * now apply splits_literal.
    + cbn [expected]. f_equal. unfold observe. rewrite fragment_bytes_slice, info_range.
      cbn [fst snd]. rewrite Kb, Kc, Ke, Kp, app_length. unfold message_bytes. rewrite Kb. reflexivity.
    + cbn [current]. destruct g as [l [a|] en|d]; cbn [ends_message frag_bytes] in *; exact Hf.
Qed.

(** The split of a stream is unique. *)
Lemma announces_fun l a b : announces l a -> announces l b -> a = b.
Proof.
  intros Ha Hb.
  assert (exists t, l = t ++ [bLF]) as (t & ->).
  { destruct Ha as (pre & ds & eol & -> & [-> | ->] & _).
    - eexists. rewrite !app_assoc. reflexivity.
    - exists (pre ++ bs "{" ++ ds ++ plus_of (ann_mode a) ++ bs "}" ++ [bCR]).
      rewrite <- !app_assoc. reflexivity. }
  apply announces_iff in Ha as [Ca|(ta & -> & Ca)];
  apply announces_iff in Hb as [Cb|(tb & Eb & Cb)];
  try (rewrite Eb in Ca; pose proof (latest_after_closed LOther _ _ Ca) as X;
       rewrite latest_after_cr in X; discriminate X);
  try (pose proof (latest_after_closed LOther _ _ Cb) as X;
       rewrite latest_after_cr in X; discriminate X).
  - apply (latest_after_closed LOther) in Ca, Cb. congruence.
  - apply app_inj_tail in Eb as [-> _].
    apply (latest_after_closed LOther) in Ca, Cb. congruence.
Qed.

Lemma announcement_of_fun l a b : announcement_of l a -> announcement_of l b -> a = b.
Proof.
  destruct a as [a|], b as [b|]; cbn; intros Ha Hb.
  - f_equal. eapply announces_fun; eassumption.
  - now apply Hb in Ha.
  - now apply Ha in Hb.
  - reflexivity.
Qed.

Lemma ending_of_fun l a b : ending_of l a -> ending_of l b -> a = b.
Proof. destruct a, b; cbn; tauto. Qed.

Lemma line_prefix_fun l s l' s' : is_line l -> is_line l' -> l ++ s = l' ++ s' -> l = l' /\ s = s'.
Proof.
  intros (t & -> & Ht) (t' & -> & Ht'). rewrite <- !app_assoc. cbn [app]. revert t' Ht'.
  induction t as [|b t IH]; intros [|b' t'] Ht' E; cbn in E.
  - injection E as ->. auto.
  - injection E as <- _. exfalso. apply Ht'. now left.
  - injection E as -> _. exfalso. apply Ht. now left.
  - injection E as -> E. destruct (IH ltac:(intros ?; apply Ht; now right) t'
      ltac:(intros ?; apply Ht'; now right) E) as [E1 ->]. cbn. rewrite E1. auto.
Qed.

Lemma splits_fun e s fs e1 r1 : splits e s fs e1 r1 -> forall fs2 e2 r2,
  splits e s fs2 e2 r2 -> fs = fs2 /\ e1 = e2 /\ r1 = r2.
Proof.
  induction 1 as [s Hn|n s Hn|l ann en s fs e r Hl Ha He Hs IH|n d s fs e r Hd Hs IH];
    intros fs2 e2 r2 H2; inversion H2; subst; auto.
  - exfalso. apply Hn. destruct H as (t & -> & _). rewrite <- app_assoc. apply in_or_app. right. now left.
  - rewrite lenN_app in Hn. lia.
  - exfalso. destruct Hl as (t & -> & _). apply H. rewrite <- app_assoc. apply in_or_app. right. now left.
  - match goal with H : _ ++ _ = _ ++ _ |- _ =>
      apply line_prefix_fun in H as [-> ->]; [|assumption|assumption] end.
    pose proof (announcement_of_fun _ _ _ Ha H1) as <-.
    pose proof (ending_of_fun _ _ _ He H3) as <-.
    destruct (IH _ _ _ H4) as (-> & -> & ->). auto.
  - match goal with H : (lenN (_ ++ _) < _)%N |- _ => rewrite lenN_app in H; lia end.
  - assert (d0 = d /\ s0 = s) as [-> ->].
    { assert (L : length d0 = length d) by (unfold lenN in *; lia).
      match goal with H : d0 ++ _ = _ |- _ => clear -H L; revert d0 L H end.
      induction d as [|x d IHd]; intros [|y d0] L E; try discriminate; [auto|].
      cbn in *. injection E as -> E. injection L as L. destruct (IHd _ L E) as [-> ->]. auto. }
    match goal with H : splits _ _ fs0 _ _ |- _ => destruct (IH _ _ _ H) as (-> & -> & ->) end. auto.
Qed.

Lemma splits_concat e s fs e' r : splits e s fs e' r -> s = concat (map frag_bytes fs) ++ r.
Proof. induction 1; cbn; auto; now rewrite IHsplits, <- app_assoc. Qed.

(** ** Histories with poisoning and skipping *)

Definition unpoison (s : fragmentizer) : fragmentizer :=
  mkFrag (unparsed s) (max_size s) (exceeded s) false (buffer s) (fparser_of s).
Definition unpoison_obs (o : observation) : observation :=
  mkObs (ob_fragment o) (ob_bytes o) (ob_complete o) (ob_message o) (ob_exceeded o) false.

Lemma dequeue_unpoison s n : dequeue (unpoison s) n = unpoison (dequeue s n).
Proof. unfold dequeue. cbn. destruct (max_size s); [dif|]; reflexivity. Qed.

Lemma progress_unpoison s :
  progress (unpoison s) = (unpoison (fst (progress s)), snd (progress s)).
Proof.
  unfold progress.
  assert (E : start_message (unpoison s) =
              (unpoison (fst (start_message s)), snd (start_message s)))
    by (unfold start_message; cbn; destruct (fparser_of s); reflexivity).
  rewrite E. destruct (start_message s) as [s0 p]. cbn [fst snd].
  change (unparsed (unpoison s0)) with (unparsed s0).
  destruct (parse_fragment p (unparsed s0)) as [[p' n] f].
  change (set_parser (unpoison s0) (Some p')) with (unpoison (set_parser s0 (Some p'))).
  rewrite dequeue_unpoison. destruct f; reflexivity.
Qed.


Lemma run_unpoison ops : forall s,
  run (unpoison s) (no_poison ops) =
    (unpoison (fst (run s ops)), map unpoison_obs (snd (run s ops))).
Proof.
  induction ops as [|o ops IH]; intros s; [reflexivity|].
  cbn [run].
  assert (St : forall o, o <> Poison -> step (unpoison s) o =
               (unpoison (fst (step s o)), map unpoison_obs (snd (step s o)))).
  { intros [x| | |] Ho; try reflexivity; [|contradiction].
    cbn [step]. rewrite progress_unpoison. destruct (progress s) as [s1 [f|]]; reflexivity. }
  destruct o; cbn [no_poison filter run]; fold (no_poison ops);
    try (rewrite St by discriminate;
         match goal with |- context[step s ?o] => destruct (step s o) as [s1 o1] end;
         cbn [fst snd]; rewrite IH; destruct (run s1 ops) as [s2 o2]; cbn [fst snd];
         now rewrite map_app).
  cbn [step]. specialize (IH (poison_message s)).
  change (unpoison (poison_message s)) with (unpoison s) in IH. rewrite IH.
  now destruct (run (poison_message s) ops) as [s2 o2].
Qed.

(** A poisoned message stays poisoned, through every history that does not leave it. *)

Lemma progress_poisoned s : is_message_complete s = false ->
  poisoned (fst (progress s)) = poisoned s.
Proof.
  unfold is_message_complete, progress, start_message. intros H.
  destruct (fparser_of s) as [p|] eqn:E; [|discriminate].
  destruct (parse_fragment p (unparsed s)) as [[p' n] f].
  assert (K : poisoned (dequeue (set_parser s (Some p')) n) = poisoned s).
  { unfold dequeue. cbn. destruct (max_size s); [dif|]; reflexivity. }
  destruct f; exact K.
Qed.

Lemma stays_poisoned ops : forall s, poisoned s = true -> stays s ops ->
  poisoned (fst (run s ops)) = true.
Proof.
  induction ops as [|o ops IH]; intros s Hp Hs; [exact Hp|].
  cbn [run]. destruct o as [x| | |]; cbn [stays step fst] in Hs; try contradiction.
  - specialize (IH (enqueue s x) Hp Hs). cbn [step]. now destruct (run (enqueue s x) ops).
  - destruct Hs as [Hc Hs]. pose proof (progress_poisoned s Hc) as K. cbn [step].
    destruct (progress s) as [s1 f]. cbn [fst] in *. rewrite Hp in K.
    specialize (IH s1 K Hs). now destruct (run s1 ops).
  - specialize (IH (poison_message s) eq_refl Hs). cbn [step]. now destruct (run (poison_message s) ops).
Qed.

Lemma progress_new_message s : is_message_complete s = true ->
  progress s = progress (enqueue (frag_new (max_size s)) (unparsed s)).
Proof.
  unfold is_message_complete, progress, start_message. intros H.
  destruct (fparser_of s) eqn:E; [discriminate|]. reflexivity.
Qed.

(** The buffer never exceeds the limit, in any history. *)
Definition bounded (s : fragmentizer) : Prop :=
  match max_size s with Some n => (lenN (buffer s) <= n)%N | None => True end.

Lemma dequeue_max s n : max_size (dequeue s n) = max_size s.
Proof. unfold dequeue. destruct (max_size s) eqn:E; [dif|]; exact E || reflexivity. Qed.

Lemma dequeue_bounded s n : bounded s -> n <= length (unparsed s) -> bounded (dequeue s n).
Proof.
  unfold bounded. rewrite dequeue_max. unfold dequeue.
  destruct (max_size s) as [m|]; [|trivial]. intros H Hn.
  match goal with |- context[Nat.ltb ?a ?b] => destruct (Nat.ltb_spec a b) end; cbn [buffer];
    rewrite lenN_app; unfold lenN in *; rewrite ?firstn_length; lia.
Qed.

Lemma parse_fragment_count p i : snd (fst (parse_fragment p i)) <= length i.
Proof.
  destruct (parse_fragment p i) as [[p' n] [f|]] eqn:E; cbn.
  - now apply (parse_fragment_some_app _ _ []) in E as [_ ?].
  - apply (parse_fragment_none_app _ _ []) in E as [-> _]. lia.
Qed.

Lemma progress_bounded s : bounded s ->
  max_size (fst (progress s)) = max_size s /\ bounded (fst (progress s)).
Proof.
  intros H. unfold progress.
  destruct (start_message s) as [s0 p] eqn:E.
  assert (H0 : max_size s0 = max_size s /\ bounded s0).
  { unfold start_message in E. destruct (fparser_of s); inversion E; subst; [auto|].
    split; [reflexivity|]. unfold bounded; cbn. destruct (max_size s); cbn; [lia|trivial]. }
  destruct H0 as [Hm Hb].
  pose proof (parse_fragment_count p (unparsed s0)) as Hn.
  destruct (parse_fragment p (unparsed s0)) as [[p' n] f]. cbn in Hn.
  assert (K : max_size (dequeue (set_parser s0 (Some p')) n) = max_size s /\
              bounded (dequeue (set_parser s0 (Some p')) n)).
  { split; [rewrite dequeue_max; exact Hm|]. now apply dequeue_bounded. }
  destruct f; exact K.
Qed.

Lemma run_bounded ops : forall s, bounded s ->
  max_size (fst (run s ops)) = max_size s /\ bounded (fst (run s ops)).
Proof.
  induction ops as [|o ops IH]; intros s H; [auto|].
  cbn [run].
  assert (K : max_size (fst (step s o)) = max_size s /\ bounded (fst (step s o))).
  { destruct o; cbn [step].
    - auto.
    - pose proof (progress_bounded s H) as K. now destruct (progress s) as [s1 f].
    - split; [reflexivity|]. unfold bounded; cbn. destruct (max_size s); cbn; [lia|trivial].
    - auto. }
  destruct (step s o) as [s1 o1]. cbn [fst] in K. destruct K as [Km Kb].
  destruct (IH s1 Kb) as [Km' Kb']. destruct (run s1 ops) as [s2 o2]. cbn [fst] in *.
  split; [congruence|exact Kb'].
Qed.

(** ** decode_tag *)

Lemma tag_char_class b : is_tag_char b = true ->
  beq b bSP = false /\ beq b bLF = false /\ inb 0x00 0x7f b = true.
Proof.
  intros H. pose proof (byte_impl is_tag_char
    (fun b => negb (beq b bSP) && negb (beq b bLF) && inb 0x00 0x7f b)
    ltac:(vm_compute; reflexivity) b H) as K. cbv beta in K.
  destruct (beq b bSP), (beq b bLF), (inb 0x00 0x7f b); try discriminate K; auto.
Qed.

Lemma utf8_ascii s : forallb (inb 0x00 0x7f) s = true -> utf8_ok s = true.
Proof.
  induction s as [|b s IH]; [reflexivity|]. cbn [forallb]. intros H.
  apply andb_true_iff in H as [H1 H2]. cbn [utf8_ok]. rewrite H1. auto.
Qed.

Lemma find_sp_some i t : find_sp i = Some t <-> exists r, i = t ++ bSP :: r /\ ~ In bSP t /\ ~ In bLF t.
Proof.
  revert t; induction i as [|b i IH]; intros t; cbn [find_sp].
  - split; [discriminate|]. intros (r & E & _). destruct t; discriminate.
  - destruct (beq_spec b bSP) as [->|Hs].
    + split.
      * intros [= <-]. exists i. split; [reflexivity|]. split; intros [].
      * intros (r & E & Hn & _). destruct t as [|c t]; [reflexivity|].
        injection E as <- _. exfalso. apply Hn. now left.
    + destruct (beq_spec b bLF) as [->|Hl].
      * split; [discriminate|]. intros (r & E & _ & Hn).
        destruct t as [|c t]; [discriminate E|]. injection E as <- _. exfalso. apply Hn. now left.
      * split.
        -- destruct (find_sp i) as [t'|]; [|discriminate]. intros [= <-].
           destruct (proj1 (IH t') eq_refl) as (r & -> & H1 & H2). exists r.
           split; [reflexivity|]. split; intros [E|E]; try congruence; contradiction.
        -- intros (r & E & H1 & H2). destruct t as [|c t]; [cbn in E; congruence|].
           injection E as <- E. assert (K : find_sp i = Some t).
           { apply IH. exists r. split; [exact E|]. split; intros ?; [apply H1|apply H2]; now right. }
           now rewrite K.
Qed.

Lemma forallb_not_in (f : byte -> bool) c s : f c = false -> forallb f s = true -> ~ In c s.
Proof. intros Hc H Hi. rewrite forallb_forall in H. rewrite (H _ Hi) in Hc. discriminate. Qed.

Lemma tag_ok_forallb t : tag_ok t = true -> t <> [] /\ forallb is_tag_char t = true.
Proof. destruct t; [discriminate|]. intros H; split; [discriminate|exact H]. Qed.

Lemma parse_tag_spec i t :
  parse_tag i = Some t <-> tag_ok t = true /\ exists r, i = t ++ bSP :: r.
Proof.
  unfold parse_tag. split.
  - destruct (find_sp i) as [t'|] eqn:E; [|discriminate].
    destruct (utf8_ok t' && tag_ok t') eqn:K; [|discriminate]. intros [= <-].
    apply andb_true_iff in K as [_ K]. apply find_sp_some in E as (r & -> & _). eauto.
  - intros (Ht & r & ->). destruct (tag_ok_forallb t Ht) as [_ Hf].
    assert (E : find_sp (t ++ bSP :: r) = Some t).
    { apply find_sp_some. exists r. split; [reflexivity|].
      split; eapply forallb_not_in; [|exact Hf| |exact Hf]; reflexivity. }
    rewrite E, Ht, utf8_ascii; [reflexivity|].
    eapply forallb_impl; [|exact Hf]. intros b Hb. now apply tag_char_class.
Qed.

(** ** A limited fragmentizer against its unlimited twin, in any history *)

Definition twin (max : option N) (s u : fragmentizer) : Prop :=
  max_size s = max /\ max_size u = None /\ unparsed s = unparsed u /\
  fparser_of s = fparser_of u /\ poisoned s = poisoned u /\
  buffer s = limited max (buffer u) /\ exceeded s = too_long max (buffer u) /\
  exceeded u = false.

Lemma limited_app_firstn n m x :
  limited (Some n) (m ++ x) =
    limited (Some n) m ++ firstn (N.to_nat (n - lenN (limited (Some n) m))) x.
Proof.
  unfold limited, lenN. rewrite firstn_app, firstn_length. f_equal. f_equal. lia.
Qed.

Lemma twin_dequeue max s u k : twin max s u -> k <= length (unparsed s) ->
  twin max (dequeue s k) (dequeue u k).
Proof.
  intros (H1 & H2 & H3 & H4 & H5 & H6 & H7 & H8) Hk. unfold twin.
  rewrite !dequeue_max. unfold dequeue. rewrite H1, H2.
  destruct max as [n|].
  - assert (Hb : lenN (buffer s) = N.min n (lenN (buffer u))).
    { rewrite H6. unfold limited, lenN. rewrite firstn_length. lia. }
    assert (Hf : length (firstn k (unparsed s)) = k) by (rewrite firstn_length; lia).
    match goal with |- context[Nat.ltb ?a ?b] => destruct (Nat.ltb_spec a b) as [L|L] end;
      cbn [unparsed fparser_of poisoned buffer exceeded max_size]; rewrite <- ?H3.
    + repeat split; auto.
      * rewrite limited_app_firstn. now rewrite H6.
      * unfold too_long. rewrite lenN_app. unfold lenN at 2. rewrite Hf.
        symmetry. apply N.ltb_lt. lia.
    + repeat split; auto.
      * rewrite limited_app_firstn, <- H6. f_equal. symmetry. apply firstn_all2. lia.
      * rewrite H7. unfold too_long. rewrite lenN_app. unfold lenN at 3. rewrite Hf.
        destruct (N.ltb_spec n (lenN (buffer u))), (N.ltb_spec n (lenN (buffer u) + N.of_nat k));
          try reflexivity; lia.
  - cbn [unparsed fparser_of poisoned buffer exceeded max_size limited too_long].
    cbn in H6, H7. rewrite <- H3, H6. repeat split; auto.
Qed.

Lemma twin_set max s u p : twin max s u -> twin max (set_parser s p) (set_parser u p).
Proof. unfold twin, set_parser. cbn. intuition. Qed.

Lemma twin_progress max s u : twin max s u ->
  twin max (fst (progress s)) (fst (progress u)) /\ snd (progress s) = snd (progress u).
Proof.
  intros T. unfold progress.
  assert (St : twin max (fst (start_message s)) (fst (start_message u)) /\
               snd (start_message s) = snd (start_message u)).
  { unfold start_message. destruct T as (H1 & H2 & H3 & H4 & H5 & H6 & H7 & H8).
    rewrite <- H4. destruct (fparser_of s) eqn:E; cbn [fst snd].
    - unfold twin. repeat split; auto; congruence.
    - unfold twin; cbn. rewrite limited_nil, too_long_nil. repeat split; auto. }
  destruct (start_message s) as [s0 p], (start_message u) as [u0 q]. cbn [fst snd] in St.
  destruct St as [T0 <-]. destruct T0 as (H1 & H2 & H3 & H4 & H5 & H6 & H7 & H8).
  pose proof (parse_fragment_count p (unparsed s0)) as Hn. rewrite <- H3.
  destruct (parse_fragment p (unparsed s0)) as [[p' n] f]. cbn [fst snd] in Hn.
  assert (K : twin max (dequeue (set_parser s0 (Some p')) n) (dequeue (set_parser u0 (Some p')) n)).
  { apply twin_dequeue; [|exact Hn]. apply twin_set. unfold twin. repeat split; auto. }
  destruct f; cbn [fst snd]; split; auto. now apply twin_set.
Qed.


Lemma twin_complete max s u : twin max s u -> is_message_complete s = is_message_complete u.
Proof. intros (_ & _ & _ & H & _). unfold is_message_complete. now rewrite H. Qed.

Lemma twin_run max ops : forall s u, twin max s u ->
  twin max (fst (run s ops)) (fst (run u ops)) /\
  map shape (snd (run s ops)) = map shape (snd (run u ops)).
Proof.
  induction ops as [|o ops IH]; intros s u T; [split; [exact T|reflexivity]|].
  cbn [run].
  assert (K : twin max (fst (step s o)) (fst (step u o)) /\
              map shape (snd (step s o)) = map shape (snd (step u o))).
  { destruct o; cbn [step].
    - split; [|reflexivity].
      destruct T as (H1 & H2 & H3 & H4 & H5 & H6 & H7 & H8). unfold twin; cbn.
      rewrite H3. repeat split; auto.
    - destruct (twin_progress max s u T) as [T' Ef].
      destruct (progress s) as [s1 f], (progress u) as [u1 g]. cbn [fst snd] in *. subst g.
      split; [exact T'|]. destruct f; [|reflexivity]. cbn. unfold shape, observe; cbn.
      now rewrite (twin_complete _ _ _ T').
    - split; [|reflexivity].
      destruct T as (H1 & H2 & H3 & H4 & H5 & H6 & H7 & H8). unfold twin; cbn.
      rewrite limited_nil, too_long_nil. repeat split; auto.
    - split; [|reflexivity].
      destruct T as (H1 & H2 & H3 & H4 & H5 & H6 & H7 & H8). unfold twin; cbn. repeat split; auto. }
  destruct (step s o) as [s1 o1], (step u o) as [u1 o1']. cbn [fst snd] in K. destruct K as [T1 E1].
  destruct (IH s1 u1 T1) as [T2 E2]. destruct (run s1 ops) as [s2 o2], (run u1 ops) as [u2 o2'].
  cbn [fst snd] in *. split; [exact T2|]. rewrite !map_app. congruence.
Qed.

Lemma twin_new max : twin max (frag_new max) (frag_new None).
Proof. unfold twin; cbn. rewrite limited_nil, too_long_nil. repeat split; auto. Qed.

(** The shape of every history is that of the history without limit and poison. *)
Lemma run_shape max ops :
  map shape (snd (run (frag_new max) ops)) =
  map shape (snd (run (frag_new None) (no_poison ops))).
Proof.
  destruct (twin_run max ops _ _ (twin_new max)) as [_ ->].
  pose proof (run_unpoison ops (frag_new None)) as K.
  change (unpoison (frag_new None)) with (frag_new None) in K. rewrite K. cbn [snd].
  rewrite map_map. reflexivity.
Qed.

Lemma unpoison_new max : unpoison (frag_new max) = frag_new max.
Proof. reflexivity. Qed.

Lemma slice_last (m x : bytes) : slice (length m) (length (m ++ x)) (m ++ x) = x.
Proof.
  unfold slice. rewrite app_length, skipn_app, skipn_all, Nat.sub_diag. cbn.
  replace (length m + length x - length m) with (length x) by lia. apply firstn_all.
Qed.

Lemma expected_adds_up fs : forall msg, messages_add_up msg (expected None msg fs) /\
  concat (map ob_bytes (expected None msg fs)) = concat (map frag_bytes fs) /\
  delivered msg (expected None msg fs) = current msg fs.
Proof.
  induction fs as [|f fs IH]; intros msg; [repeat split|].
  cbn [expected messages_add_up map concat delivered current limited].
  cbn [ob_message ob_bytes ob_complete]. rewrite slice_last.
  destruct (IH (if ends_message f then [] else msg ++ frag_bytes f)) as (H1 & H2 & H3).
  split; [split; [reflexivity|exact H1]|]. split; [now rewrite H2|exact H3].
Qed.

Lemma run_drain_spec max ops obs s : feeds ops -> run_drain (frag_new max) ops obs s ->
  exists fs e rest, splits ExpectLine (fed ops) fs e rest /\ obs = expected max [] fs /\
    unparsed s = [] /\ max_size s = max /\
    message_bytes s = limited max (current [] fs ++ rest) /\
    exceeded s = too_long max (current [] fs ++ rest) /\
    poisoned s = false /\ is_message_complete s = false.
Proof.
  intros Hf R. apply run_drain_one_shot in R; [|exact Hf].
  eapply (drains_spec _ _ _ R max [] ExpectLine).
  left. unfold at_start. cbn. rewrite limited_nil, too_long_nil. repeat split; auto.
Qed.

Lemma command_tag_prefix {F : features} c k :
  tag_ok (cmd_tag c) = true -> length (cmd_tag c) < k ->
  parse_tag (firstn k (dump (e_command c))) = Some (cmd_tag c).
Proof.
  intros Ht Hk. apply parse_tag_spec. split; [exact Ht|].
  unfold e_command, e_bytes, spc. rewrite !dump_app, dump_W, dump_B, dump_nil. cbn [app].
  match goal with |- context[?b :: ?r] => exists (firstn (k - S (length (cmd_tag c))) r) end.
  rewrite firstn_app, firstn_all2 by lia. f_equal.
  replace (k - length (cmd_tag c)) with (S (k - S (length (cmd_tag c)))) by lia. reflexivity.
Qed.

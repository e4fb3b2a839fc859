(** An invariant of all parsers of the model, closed under the combinators.

    [ok k v p], for inputs shorter than [k] bytes:
    - a success leaves a suffix of the input, its value satisfies [v], and more input after
      it changes nothing but the rest;
    - an error, or a failure other than a found literal, stays with more input;
    - a found literal is announced by the last bytes of the input;
    - there is no panic. *)

From Verif Require Import Bytes BytesFacts Dec Features Nom ParseCore Fragmentizer FragSpec.

Ltac inv H := inversion H; subst; clear H.

Section Ok.
Context {F : features}.

(** The input ends in ["{" digits ["+"] "}"] and a line ending the decoder accepts. *)
Definition announced (i : bytes) (n : N) (m : lit_mode) : Prop :=
  exists pre digits eol,
    i = pre ++ bs "{" ++ digits ++ plus_of m ++ bs "}" ++ eol /\
    (eol = [bCR; bLF] \/ quirk_crlf_relaxed = true /\ eol = [bLF]) /\
    digits <> [] /\ forallb is_digit digits = true /\
    n = dval digits /\ (n <= u32_max)%N.

Definition ok_at {A} (k : nat) (v : A -> bool) (p : parser A) (i : bytes) : Prop :=
  match p i with
  | ROk r a =>
    (exists c, i = c ++ r) /\ v a = true /\
    forall x, length (i ++ x) < k -> p (i ++ x) = ROk (r ++ x) a
  | RInc => True
  | RErr => forall x, length (i ++ x) < k -> p (i ++ x) = RErr
  | RFail FOther => forall x, length (i ++ x) < k -> p (i ++ x) = RFail FOther
  | RFail (FLit t n m) => t = None /\ announced i n m
  | RPanic => False
  end.
Definition ok {A} (k : nat) (v : A -> bool) (p : parser A) : Prop :=
  forall i, length i < k -> ok_at k v p i.

Lemma announced_app c i n m : announced i n m -> announced (c ++ i) n m.
Proof.
  intros (pre & d & e & -> & H). exists (c ++ pre), d, e. now rewrite <- app_assoc.
Qed.

Section Use.
Context {A} {k : nat} {v : A -> bool} {p : parser A} (H : ok k v p).
Lemma ok_suffix i r a : length i < k -> p i = ROk r a -> exists c, i = c ++ r.
Proof. intros L E. specialize (H i L). unfold ok_at in H. rewrite E in H. tauto. Qed.
Lemma ok_post i r a : length i < k -> p i = ROk r a -> v a = true.
Proof. intros L E. specialize (H i L). unfold ok_at in H. rewrite E in H. tauto. Qed.
Lemma ok_ext i x r a : length (i ++ x) < k -> p i = ROk r a -> p (i ++ x) = ROk (r ++ x) a.
Proof.
  intros L E. assert (L' : length i < k) by (rewrite app_length in L; lia).
  specialize (H i L'). unfold ok_at in H. rewrite E in H. now apply H.
Qed.
Lemma ok_err i x : length (i ++ x) < k -> p i = RErr -> p (i ++ x) = RErr.
Proof.
  intros L E. assert (L' : length i < k) by (rewrite app_length in L; lia).
  specialize (H i L'). unfold ok_at in H. rewrite E in H. now apply H.
Qed.
Lemma ok_fail i x : length (i ++ x) < k -> p i = RFail FOther -> p (i ++ x) = RFail FOther.
Proof.
  intros L E. assert (L' : length i < k) by (rewrite app_length in L; lia).
  specialize (H i L'). unfold ok_at in H. rewrite E in H. now apply H.
Qed.
Lemma ok_lit i t n m : length i < k -> p i = RFail (FLit t n m) -> t = None /\ announced i n m.
Proof. intros L E. specialize (H i L). unfold ok_at in H. now rewrite E in H. Qed.
Lemma ok_panic i : length i < k -> p i <> RPanic.
Proof. intros L E. specialize (H i L). unfold ok_at in H. now rewrite E in H. Qed.
Lemma ok_len i r a : length i < k -> p i = ROk r a -> length r <= length i.
Proof. intros L E. destruct (ok_suffix _ _ _ L E) as [c ->]. rewrite app_length. lia. Qed.
End Use.

Lemma ok_mono {A} k k' v (p : parser A) : ok k v p -> k' <= k -> ok k' v p.
Proof.
  intros H L i Li. specialize (H i ltac:(lia)). unfold ok_at in *.
  destruct (p i) as [r a | | | [t n m |] |]; try tauto.
  - destruct H as (E & V & X). repeat split; auto. intros x Lx. apply X. lia.
  - intros x Lx. apply H. lia.
  - intros x Lx. apply H. lia.
Qed.

Lemma ok_weaken {A} k (v w : A -> bool) (p : parser A) :
  ok k v p -> (forall a, v a = true -> w a = true) -> ok k w p.
Proof.
  intros H I i L. specialize (H i L). unfold ok_at in *.
  destruct (p i) as [r a | | | [t n m |] |]; try tauto.
  destruct H as (E & V & X). repeat split; auto.
Qed.

(** Parsers that agree on short inputs *)
Lemma ok_eq {A} k v (p q : parser A) :
  ok k v p -> (forall i, length i < k -> p i = q i) -> ok k v q.
Proof.
  intros H E i L. specialize (H i L). unfold ok_at in *. rewrite <- E by exact L.
  destruct (p i) as [r a | | | [t n m |] |]; try tauto.
  - destruct H as (S & V & X). repeat split; auto. intros x Lx. rewrite <- E by exact Lx. auto.
  - intros x Lx. rewrite <- E by exact Lx. auto.
  - intros x Lx. rewrite <- E by exact Lx. auto.
Qed.

Lemma ok_ret {A} k (v : A -> bool) a : v a = true -> ok k v (ret a).
Proof. intros V i L. unfold ok_at, ret. repeat split; auto. now exists []. Qed.

Lemma ok_perr {A} k (v : A -> bool) : ok k v perr.
Proof. intros i L. now unfold ok_at, perr. Qed.
Lemma ok_pfail {A} k (v : A -> bool) : ok k v pfail.
Proof. intros i L. now unfold ok_at, pfail. Qed.

Lemma ok_bind {A B} k (v : A -> bool) (w : B -> bool) p f :
  ok k v p -> (forall a, v a = true -> ok k w (f a)) -> ok k w (bind p f).
Proof.
  intros Hp Hf i L. unfold ok_at, bind.
  pose proof (Hp i L) as H. unfold ok_at in H.
  destruct (p i) as [r a | | | [t n m |] |] eqn:E; try tauto.
  - destruct H as ([c ->] & V & X).
    assert (Lr : length r < k) by (rewrite app_length in L; lia).
    pose proof (Hf a V r Lr) as G. unfold ok_at in G.
    destruct (f a r) as [r' b | | | [t n m |] |] eqn:E2; try tauto.
    + destruct G as ([c' ->] & V' & X'). repeat split; auto.
      * exists (c ++ c'). now rewrite app_assoc.
      * intros x Lx. rewrite X by exact Lx. apply X'. rewrite !app_length in *. lia.
    + intros x Lx. rewrite X by exact Lx. apply G. rewrite !app_length in *. lia.
    + split; [tauto | now apply announced_app].
    + intros x Lx. rewrite X by exact Lx. apply G. rewrite !app_length in *. lia.
  - intros x Lx. now rewrite H.
  - intros x Lx. now rewrite H.
Qed.

(** After a parser that consumes something, the input is shorter. *)
Definition eats {A} (p : parser A) : Prop :=
  forall i r a, p i = ROk r a -> length r < length i.
Lemma ok_bind_eats {A B} k (v : A -> bool) (w : B -> bool) p f :
  eats p -> ok (S k) v p -> (forall a, v a = true -> ok k w (f a)) -> ok (S k) w (bind p f).
Proof.
  intros D Hp Hf i L. unfold ok_at, bind.
  pose proof (Hp i L) as H. unfold ok_at in H.
  destruct (p i) as [r a | | | [t n m |] |] eqn:E; try tauto.
  - pose proof (D _ _ _ E) as De. destruct H as ([c ->] & V & X).
    assert (Lr : length r < k) by lia.
    pose proof (Hf a V r Lr) as G. unfold ok_at in G. rewrite app_length in De.
    destruct (f a r) as [r' b | | | [t n m |] |] eqn:E2; try tauto.
    + destruct G as ([c' ->] & V' & X'). repeat split; auto.
      * exists (c ++ c'). now rewrite app_assoc.
      * intros x Lx. rewrite X by exact Lx. apply X'. rewrite !app_length in *. lia.
    + intros x Lx. rewrite X by exact Lx. apply G. rewrite !app_length in *. lia.
    + split; [tauto | now apply announced_app].
    + intros x Lx. rewrite X by exact Lx. apply G. rewrite !app_length in *. lia.
  - intros x Lx. now rewrite H.
  - intros x Lx. now rewrite H.
Qed.

Lemma ok_pmap {A B} k (v : A -> bool) (w : B -> bool) f p :
  ok k v p -> (forall a, v a = true -> w (f a) = true) -> ok k w (pmap f p).
Proof. intros Hp Hf. apply (ok_bind k v); [exact Hp |]. intros a V. apply ok_ret. auto. Qed.

Lemma ok_value {A B} k (v : A -> bool) (w : B -> bool) b p :
  ok k v p -> w b = true -> ok k w (value b p).
Proof. intros Hp Hf. apply (ok_bind k v); [exact Hp |]. intros a V. apply ok_ret. auto. Qed.

Lemma ok_map_res {A B} k (v : A -> bool) (w : B -> bool) p (f : A -> option B) :
  ok k v p -> (forall a b, v a = true -> f a = Some b -> w b = true) -> ok k w (map_res p f).
Proof.
  intros Hp Hf. apply (ok_bind k v); [exact Hp |]. intros a V.
  destruct (f a) eqn:E; [apply ok_ret; eauto | apply ok_perr].
Qed.

Lemma ok_expect {A B} k (v : A -> bool) (w : B -> bool) p (f : A -> option B) :
  ok k v p -> (forall a, v a = true -> exists b, f a = Some b /\ w b = true) ->
  ok k w (expect p f).
Proof.
  intros Hp Hf. apply (ok_bind k v); [exact Hp |]. intros a V.
  destruct (Hf a V) as (b & -> & W). now apply ok_ret.
Qed.

Lemma ok_terminated {A B} k (v : A -> bool) (w : B -> bool) p q :
  ok k v p -> ok k w q -> ok k v (terminated p q).
Proof.
  intros Hp Hq. apply (ok_bind k v); [exact Hp |]. intros a V.
  apply (ok_bind k w); [exact Hq |]. intros _ _. now apply ok_ret.
Qed.

Lemma ok_delimited {A B C} k (u : A -> bool) (v : B -> bool) (w : C -> bool) p q r :
  ok k u p -> ok k v q -> ok k w r -> ok k v (delimited p q r).
Proof.
  intros Hp Hq Hr. apply (ok_bind k u); [exact Hp |]. intros _ _.
  apply (ok_bind k v); [exact Hq |]. intros a V.
  apply (ok_bind k w); [exact Hr |]. intros _ _. now apply ok_ret.
Qed.

Definition any {A} (_ : A) : bool := true.

Lemma ok_tag k v t : v tt = true -> ok k v (tag t).
Proof.
  intros V. induction t as [| c t IH]; intros i L; unfold ok_at; cbn.
  - repeat split; auto. now exists [].
  - destruct i as [| x i]; [trivial |]. cbn in L. destruct (beq x c) eqn:Ex.
    + specialize (IH i ltac:(lia)). unfold ok_at in IH.
      destruct (tag t i) as [r a | | | [? ? ? |] |] eqn:E; try tauto; cbn.
      * destruct IH as ([c' ->] & _ & X). repeat split; auto.
        -- now exists (x :: c').
        -- destruct a; auto.
        -- intros y Ly. rewrite Ex. apply X. lia.
      * intros y Ly. rewrite Ex. apply IH. lia.
      * destruct IH as [-> IH]. split; [reflexivity |]. apply (announced_app [x]), IH.
      * intros y Ly. rewrite Ex. apply IH. lia.
    + intros y Ly. cbn. now rewrite Ex.
Qed.

Lemma ok_tag_no_case k v t : v tt = true -> ok k v (tag_no_case t).
Proof.
  intros V. induction t as [| c t IH]; intros i L; unfold ok_at; cbn.
  - repeat split; auto. now exists [].
  - destruct i as [| x i]; [trivial |]. cbn in L.
    destruct (beq (lower x) (lower c)) eqn:Ex.
    + specialize (IH i ltac:(lia)). unfold ok_at in IH.
      destruct (tag_no_case t i) as [r a | | | [? ? ? |] |] eqn:E; try tauto; cbn.
      * destruct IH as ([c' ->] & _ & X). repeat split; auto.
        -- now exists (x :: c').
        -- destruct a; auto.
        -- intros y Ly. rewrite Ex. apply X. lia.
      * intros y Ly. rewrite Ex. apply IH. lia.
      * destruct IH as [-> IH]. split; [reflexivity |]. apply (announced_app [x]), IH.
      * intros y Ly. rewrite Ex. apply IH. lia.
    + intros y Ly. cbn. now rewrite Ex.
Qed.

Lemma ok_sat k (v : byte -> bool) f : (forall b, f b = true -> v b = true) -> ok k v (sat f).
Proof.
  intros V i L. unfold ok_at, sat. destruct i as [| x i]; [trivial |].
  destruct (f x) eqn:Ex.
  - repeat split; auto.
    + now exists [x].
    + intros y _. cbn. now rewrite Ex.
  - intros y _. cbn. now rewrite Ex.
Qed.
Lemma ok_char k v c : v c = true -> ok k v (char c).
Proof. intros V. apply ok_sat. intros b E. apply beq_eq in E. now subst. Qed.

Lemma span_some f i a r : span f i = Some (a, r) ->
  i = a ++ r /\ forallb f a = true /\ exists x r', r = x :: r' /\ f x = false.
Proof.
  revert a r. induction i as [| x i IH]; cbn; [discriminate |]. intros a r.
  destruct (f x) eqn:Ex.
  - destruct (span f i) as [[a' r'] |]; [| discriminate]. intros [= <- <-].
    destruct (IH _ _ eq_refl) as (-> & Ha & Hr). cbn. now rewrite Ex.
  - intros [= <- <-]. repeat split. now exists x, i.
Qed.
Lemma span_app_some f a x r : forallb f a = true -> f x = false ->
  span f (a ++ x :: r) = Some (a, x :: r).
Proof.
  intros Ha Hx. induction a as [| y a IH]; cbn in *; [now rewrite Hx |].
  apply andb_true_iff in Ha as [Hy Ha]. now rewrite Hy, IH.
Qed.
Lemma span_none f i : span f i = None -> forallb f i = true.
Proof.
  induction i as [| x i IH]; cbn; [reflexivity |].
  destruct (f x); [| discriminate]. destruct (span f i) as [[? ?] |]; [discriminate |]. auto.
Qed.
Lemma span_all f i : forallb f i = true -> span f i = None.
Proof.
  induction i as [| x i IH]; cbn; [reflexivity |]. intros H.
  apply andb_true_iff in H as [-> H]. now rewrite IH.
Qed.
Lemma span_ext f i a r x : span f i = Some (a, r) -> span f (i ++ x) = Some (a, r ++ x).
Proof.
  intros H. apply span_some in H as (-> & Ha & y & r' & -> & Hy).
  rewrite <- app_assoc. cbn. now apply span_app_some.
Qed.

Lemma ok_take_while k f (v : bytes -> bool) :
  (forall s, forallb f s = true -> v s = true) -> ok k v (take_while f).
Proof.
  intros V i L. unfold ok_at, take_while. destruct (span f i) as [[a r] |] eqn:E; [| trivial].
  pose proof (span_some _ _ _ _ E) as (-> & Ha & _). repeat split; auto.
  - now exists a.
  - intros x _. erewrite span_ext by exact E. reflexivity.
Qed.

Lemma ok_take_while1 k f (v : bytes -> bool) :
  (forall s, s <> [] -> forallb f s = true -> v s = true) -> ok k v (take_while1 f).
Proof.
  intros V i L. unfold ok_at, take_while1.
  destruct (span f i) as [[a r] |] eqn:E; [| trivial].
  pose proof (span_some _ _ _ _ E) as (Ei & Ha & _). destruct a as [| b a].
  - intros x _. erewrite span_ext by exact E. reflexivity.
  - repeat split; auto.
    + now exists (b :: a).
    + apply V; [discriminate | exact Ha].
    + intros x _. erewrite span_ext by exact E. reflexivity.
Qed.

Lemma firstn_forallb {A} (f : A -> bool) n l : forallb f l = true -> forallb f (firstn n l) = true.
Proof.
  revert l. induction n; intros [| x l] H; cbn in *; auto.
  apply andb_true_iff in H as [-> H]. cbn. auto.
Qed.

Lemma ok_take_while_m_n k m n f (v : bytes -> bool) : m <= n ->
  (forall s, m <= length s <= n -> forallb f s = true -> v s = true) ->
  ok k v (take_while_m_n m n f).
Proof.
  intros Lmn V i L. unfold ok_at, take_while_m_n.
  destruct (span f i) as [[a r] |] eqn:E.
  - pose proof (span_some _ _ _ _ E) as (Ei & Ha & _).
    destruct (Nat.leb_spec m (length a)).
    + destruct (Nat.leb_spec (length a) n).
      * rewrite Ei, skipn_app_exact. repeat split; auto.
        -- now exists a.
        -- intros x _. rewrite <- Ei. erewrite span_ext by exact E.
           destruct (Nat.leb_spec m (length a)); [| lia].
           destruct (Nat.leb_spec (length a) n); [| lia].
           rewrite Ei, <- app_assoc, skipn_app_exact. reflexivity.
      * assert (Ln : n <= length i) by (rewrite Ei, app_length; lia). repeat split.
        -- exists (firstn n i). now rewrite firstn_skipn.
        -- apply V.
           ++ rewrite firstn_length. lia.
           ++ rewrite Ei, firstn_app_le by lia. now apply firstn_forallb.
        -- intros x _. erewrite span_ext by exact E.
           destruct (Nat.leb_spec m (length a)); [| lia].
           destruct (Nat.leb_spec (length a) n); [lia |].
           now rewrite skipn_app_le, firstn_app_le by lia.
    + intros x _. erewrite span_ext by exact E.
      destruct (Nat.leb_spec m (length a)); [lia | reflexivity].
  - pose proof (span_none _ _ E) as Hi. destruct (Nat.leb_spec n (length i)); [| trivial].
    repeat split.
    + exists (firstn n i). now rewrite firstn_skipn.
    + apply V; [rewrite firstn_length; lia | now apply firstn_forallb].
    + intros x _. destruct (span f (i ++ x)) as [[a r] |] eqn:E2.
      * pose proof (span_some _ _ _ _ E2) as (Ei & Ha & y & r' & -> & Hy).
        assert (La : length i <= length a).
        { destruct (Nat.le_gt_cases (length i) (length a)) as [|C]; [assumption | exfalso].
          assert (Hn : nth_error (i ++ x) (length a) = Some y).
          { rewrite Ei, nth_error_app2, Nat.sub_diag by lia. reflexivity. }
          rewrite nth_error_app1 in Hn by lia. apply nth_error_In in Hn.
          rewrite forallb_forall in Hi. rewrite (Hi _ Hn) in Hy. discriminate. }
        destruct (Nat.leb_spec m (length a)); [| lia].
        destruct (Nat.leb_spec (length a) n).
        -- assert (E1 : length a = length i) by lia. assert (E3 : n = length i) by lia.
           rewrite E1, E3, skipn_app_le, firstn_all by lia. f_equal.
           apply (f_equal (firstn (length i))) in Ei.
           rewrite <- E1 in Ei at 2. rewrite firstn_app_exact in Ei.
           rewrite firstn_app_exact in Ei. congruence.
        -- now rewrite skipn_app_le, firstn_app_le by lia.
      * destruct (Nat.leb_spec n (length (i ++ x))); [| rewrite app_length in *; lia].
        now rewrite skipn_app_le, firstn_app_le by lia.
Qed.

Lemma ok_take k n (v : bytes -> bool) :
  (forall s, lenN s = n -> v s = true) -> ok k v (take n).
Proof.
  intros V i L. unfold ok_at, take. destruct (N.leb_spec n (lenN i)) as [H |]; [| trivial].
  assert (Hn : N.to_nat n <= length i) by (unfold lenN in H; lia). repeat split.
  - exists (firstn (N.to_nat n) i). now rewrite firstn_skipn.
  - apply V. unfold lenN. rewrite firstn_length. lia.
  - intros x _. destruct (N.leb_spec n (lenN (i ++ x))) as [| C]; [| rewrite lenN_app in C; lia].
    now rewrite skipn_app_le, firstn_app_le by lia.
Qed.

Lemma find2_some c1 c2 i a r : find2 c1 c2 i = Some (a, r) ->
  i = a ++ r /\ exists r', r = c1 :: c2 :: r'.
Proof.
  revert a r. induction i as [| x i IH]; [discriminate |]. intros a r. cbn.
  destruct i as [| y i']; [discriminate |]. destruct (beq x c1 && beq y c2) eqn:E.
  - intros [= <- <-]. apply andb_true_iff in E as [E1 E2].
    apply beq_eq in E1, E2. subst. split; [reflexivity |]. now exists i'.
  - destruct (find2 c1 c2 (y :: i')) as [[a' r'] |]; [| discriminate]. intros [= <- <-].
    destruct (IH _ _ eq_refl) as [-> H]. auto.
Qed.
Lemma find2_step c1 c2 x y i : find2 c1 c2 (x :: y :: i) =
  if beq x c1 && beq y c2 then Some ([], x :: y :: i)
  else match find2 c1 c2 (y :: i) with Some (a, r) => Some (x :: a, r) | None => None end.
Proof. reflexivity. Qed.
Lemma find2_ext c1 c2 i a r x :
  find2 c1 c2 i = Some (a, r) -> find2 c1 c2 (i ++ x) = Some (a, r ++ x).
Proof.
  revert a r. induction i as [| z i IH]; [discriminate |]. intros a r.
  destruct i as [| y i']; [discriminate |]. cbn [app] in *. rewrite !find2_step.
  destruct (beq z c1 && beq y c2) eqn:E.
  - now intros [= <- <-].
  - destruct (find2 c1 c2 (y :: i')) as [[a' r'] |]; [| discriminate]. intros [= <- <-].
    now rewrite (IH _ _ eq_refl).
Qed.
Lemma ok_take_until2 k c1 c2 (v : bytes -> bool) :
  (forall s, v s = true) -> ok k v (take_until2 c1 c2).
Proof.
  intros V i L. unfold ok_at, take_until2. destruct (find2 c1 c2 i) as [[a r] |] eqn:E; [| trivial].
  pose proof (find2_some _ _ _ _ _ E) as [-> _]. repeat split; auto.
  - now exists a.
  - intros x _. erewrite find2_ext by exact E. reflexivity.
Qed.

Lemma ok_orp {A} k (v : A -> bool) p q : ok k v p -> ok k v q -> ok k v (orp p q).
Proof.
  intros Hp Hq i L. unfold ok_at, orp. specialize (Hp i L). unfold ok_at in Hp.
  destruct (p i) as [r a | | | [t n m |] |] eqn:E; try tauto.
  - destruct Hp as (S & V & X). repeat split; auto. intros x Lx. now rewrite X.
  - specialize (Hq i L). unfold ok_at in Hq.
    destruct (q i) as [r a | | | [t n m |] |] eqn:E2; try tauto.
    + destruct Hq as (S & V & X). repeat split; auto. intros x Lx. rewrite Hp; auto.
    + intros x Lx. rewrite Hp; auto.
    + intros x Lx. rewrite Hp; auto.
  - intros x Lx. now rewrite Hp.
Qed.
Lemma ok_alt_nil {A} k (v : A -> bool) : ok k v (alt []).
Proof. apply ok_perr. Qed.
Lemma alt_cons {A} (p : parser A) ps i : alt (p :: ps) i = orp p (alt ps) i.
Proof.
  destruct ps; [| reflexivity]. cbn. unfold orp, perr. now destruct (p i).
Qed.
Lemma ok_alt_cons {A} k (v : A -> bool) p ps :
  ok k v p -> ok k v (alt ps) -> ok k v (alt (p :: ps)).
Proof.
  intros Hp Hq. apply (ok_eq k v (orp p (alt ps))); [now apply ok_orp |].
  intros i _. now rewrite alt_cons.
Qed.

Lemma ok_gate {A} k (v : A -> bool) b p : (b = true -> ok k v p) -> ok k v (gate b p).
Proof. destruct b; cbn; intros H; [now apply H | apply ok_perr]. Qed.

Lemma ok_opt {A} k (v : A -> bool) (w : option A -> bool) p :
  ok k v p -> (forall a, v a = true -> w (Some a) = true) -> w None = true -> ok k w (opt p).
Proof.
  intros Hp HS HN i L. unfold ok_at, opt. specialize (Hp i L). unfold ok_at in Hp.
  destruct (p i) as [r a | | | [t n m |] |] eqn:E; try tauto.
  - destruct Hp as (S & V & X). repeat split; auto. intros x Lx. now rewrite X.
  - repeat split; auto; [now exists [] |]. intros x Lx. now rewrite Hp.
  - intros x Lx. now rewrite Hp.
Qed.

Lemma ok_peek {A} k (v : A -> bool) p : ok k v p -> ok k v (peek p).
Proof.
  intros Hp i L. unfold ok_at, peek. specialize (Hp i L). unfold ok_at in Hp.
  destruct (p i) as [r a | | | [t n m |] |] eqn:E; try tauto.
  - destruct Hp as (S & V & X). repeat split; auto; [now exists [] |].
    intros x Lx. now rewrite X.
  - intros x Lx. now rewrite Hp.
  - intros x Lx. now rewrite Hp.
Qed.

Lemma recognize_eq {A} (p : parser A) c r a : p (c ++ r) = ROk r a ->
  recognize p (c ++ r) = ROk r c.
Proof.
  intros E. unfold recognize. rewrite E, app_length.
  replace (length c + length r - length r) with (length c) by lia.
  now rewrite firstn_app_exact.
Qed.
Lemma ok_recognize {A} k (v : A -> bool) (w : bytes -> bool) p :
  ok k v p -> (forall s, w s = true) -> ok k w (recognize p).
Proof.
  intros Hp HS i L. unfold ok_at. pose proof (Hp i L) as H. unfold ok_at in H.
  destruct (p i) as [r a | | | [t n m |] |] eqn:E.
  - destruct H as ([c ->] & V & X). rewrite (recognize_eq _ _ _ _ E). repeat split; auto.
    + now exists c.
    + intros x Lx. specialize (X x Lx). rewrite <- app_assoc in X |- *.
      exact (recognize_eq _ _ _ _ X).
  - unfold recognize. now rewrite E.
  - unfold recognize. rewrite E. intros x Lx. now rewrite H.
  - unfold recognize. now rewrite E.
  - unfold recognize. rewrite E. intros x Lx. now rewrite H.
  - unfold recognize. now rewrite E.
Qed.

(** *** Loops: the fuel never runs out *)
Lemma many0_fuel {A} k (v : A -> bool) p : ok k v p ->
  forall f g i, length i < k -> length i < f -> length i < g -> many0_f f p i = many0_f g p i.
Proof.
  intros Hp. induction f as [| f IH]; [lia |]. intros [| g] i L Lf Lg; [lia |]. cbn [many0_f].
  destruct (p i) as [r a | | | | ] eqn:E; try reflexivity.
  destruct (Nat.ltb_spec (length r) (length i)); [| reflexivity].
  rewrite (IH g r) by lia. reflexivity.
Qed.
Lemma many0_step {A} k (v : A -> bool) p i : ok k v p -> length i < k ->
  many0 p i =
  match p i with
  | RErr => ROk i []
  | ROk r a =>
    if Nat.ltb (length r) (length i) then
      match many0 p r with ROk r' l => ROk r' (a :: l) | e => e end
    else RErr
  | RInc => RInc
  | RFail e => RFail e
  | RPanic => RPanic
  end.
Proof.
  intros Hp L. unfold many0 at 1. cbn [many0_f].
  destruct (p i) as [r a | | | | ] eqn:E; try reflexivity.
  destruct (Nat.ltb_spec (length r) (length i)); [| reflexivity].
  unfold many0. rewrite (many0_fuel k v p Hp (length i) (S (length r))) by lia. reflexivity.
Qed.
Lemma ok_many0 {A} k (v : A -> bool) p : ok k v p -> ok k (forallb v) (many0 p).
Proof.
  intros Hp i. remember (length i) as n eqn:En. revert i En.
  induction n as [n IH] using lt_wf_ind. intros i -> L. unfold ok_at.
  rewrite (many0_step k v p i Hp L).
  pose proof (Hp i L) as H. unfold ok_at in H.
  destruct (p i) as [r a | | | [t n m |] |] eqn:E; try tauto.
  - destruct H as ([c ->] & V & X).
    destruct (Nat.ltb_spec (length r) (length (c ++ r))) as [Lr | Lr].
    + pose proof (IH (length r) Lr r eq_refl ltac:(lia)) as G. unfold ok_at in G.
      assert (Step : forall x, length ((c ++ r) ++ x) < k ->
        many0 p ((c ++ r) ++ x) =
        match many0 p (r ++ x) with ROk r' l => ROk r' (a :: l) | e => e end).
      { intros x Lx. rewrite (many0_step k v p _ Hp Lx), X by exact Lx.
        destruct (Nat.ltb_spec (length (r ++ x)) (length ((c ++ r) ++ x))) as [| C];
          [reflexivity | rewrite !app_length in *; lia]. }
      destruct (many0 p r) as [r' l | | | [t n m |] |] eqn:E2; try tauto.
      * destruct G as ([c' ->] & V' & X'). repeat split.
        -- exists (c ++ c'). now rewrite app_assoc.
        -- cbn. now rewrite V.
        -- intros x Lx. rewrite Step, X' by (try exact Lx; rewrite !app_length in *; lia).
           reflexivity.
      * intros x Lx. rewrite Step, G by (try exact Lx; rewrite !app_length in *; lia). reflexivity.
      * split; [tauto | now apply announced_app].
      * intros x Lx. rewrite Step, G by (try exact Lx; rewrite !app_length in *; lia). reflexivity.
    + intros x Lx. rewrite (many0_step k v p _ Hp Lx), X by exact Lx.
      destruct (Nat.ltb_spec (length (r ++ x)) (length ((c ++ r) ++ x))) as [C |];
        [rewrite !app_length in *; lia | reflexivity].
  - repeat split; [now exists [] |]. intros x Lx.
    rewrite (many0_step k v p _ Hp Lx), H by exact Lx. reflexivity.
  - intros x Lx. rewrite (many0_step k v p _ Hp Lx), H by exact Lx. reflexivity.
Qed.
Lemma ok_many1 {A} k (v : A -> bool) p : ok k v p ->
  ok k (fun l => match l with [] => false | _ => true end && forallb v l) (many1 p).
Proof.
  intros Hp. apply (ok_bind k v); [exact Hp |]. intros a V.
  apply (ok_bind k (forallb v)); [now apply ok_many0 |]. intros l Vl.
  apply ok_ret. cbn. now rewrite V.
Qed.
Lemma ok_many_m {A} k (v : A -> bool) m p : ok k v p ->
  ok k (fun l => Nat.leb m (length l) && forallb v l) (many_m m p).
Proof.
  intros Hp. induction m as [| m IH].
  - apply (ok_weaken k (forallb v)); [now apply ok_many0 | intros a H; exact H].
  - intros i L. unfold ok_at. cbn [many_m].
    pose proof (Hp i L) as H. unfold ok_at in H.
    destruct (p i) as [r a | | | [t n l |] |] eqn:E; try tauto.
    + destruct H as ([c ->] & V & X).
      destruct (Nat.ltb_spec (length r) (length (c ++ r))) as [Lr | Lr].
      * pose proof (IH r ltac:(lia)) as G. unfold ok_at in G.
        assert (Le : forall x, Nat.ltb (length (r ++ x)) (length ((c ++ r) ++ x)) = true).
        { intros x. apply Nat.ltb_lt. rewrite !app_length in *. lia. }
        destruct (many_m m p r) as [r' l | | | [t n l |] |] eqn:E2; try tauto.
        -- destruct G as ([c' ->] & V' & X'). repeat split.
           ++ exists (c ++ c'). now rewrite app_assoc.
           ++ cbn. now rewrite V.
           ++ intros x Lx. rewrite X, Le, X' by (try exact Lx; rewrite !app_length in *; lia).
              reflexivity.
        -- intros x Lx. rewrite X, Le, G by (try exact Lx; rewrite !app_length in *; lia).
           reflexivity.
        -- split; [tauto | now apply announced_app].
        -- intros x Lx. rewrite X, Le, G by (try exact Lx; rewrite !app_length in *; lia).
           reflexivity.
      * intros x Lx. rewrite X by exact Lx.
        destruct (Nat.ltb_spec (length (r ++ x)) (length ((c ++ r) ++ x))) as [C |];
          [rewrite !app_length in *; lia | reflexivity].
    + intros x Lx. now rewrite H.
    + intros x Lx. now rewrite H.
Qed.

Lemma sep_loop_fuel {A B} k (u : B -> bool) (v : A -> bool) s p : ok k u s -> ok k v p ->
  forall f g i, length i < k -> length i < f -> length i < g ->
  sep_loop_f f s p i = sep_loop_f g s p i.
Proof.
  intros Hs Hp. induction f as [| f IH]; [lia |]. intros [| g] i L Lf Lg; [lia |]. cbn [sep_loop_f].
  destruct (s i) as [i1 b | | | | ] eqn:E; try reflexivity.
  destruct (Nat.ltb_spec (length i1) (length i)); [| reflexivity].
  destruct (p i1) as [i2 a | | | | ] eqn:E2; try reflexivity.
  destruct (Nat.leb_spec (length i2) (length i1)); [| reflexivity].
  rewrite (IH g i2) by lia. reflexivity.
Qed.
Lemma sep_loop_step {A B} k (u : B -> bool) (v : A -> bool) s p i :
  ok k u s -> ok k v p -> length i < k ->
  sep_loop s p i =
  match s i with
  | RErr => ROk i []
  | RInc => RInc
  | RFail e => RFail e
  | RPanic => RPanic
  | ROk i1 _ =>
    if Nat.ltb (length i1) (length i) then
      match p i1 with
      | RErr => ROk i []
      | RInc => RInc
      | RFail e => RFail e
      | RPanic => RPanic
      | ROk i2 a =>
          match sep_loop s p i2 with ROk r l => ROk r (a :: l) | e => e end
      end
    else RErr
  end.
Proof.
  intros Hs Hp L. unfold sep_loop at 1. cbn [sep_loop_f].
  destruct (s i) as [i1 b | | | | ] eqn:E; try reflexivity.
  destruct (Nat.ltb_spec (length i1) (length i)); [| reflexivity].
  destruct (p i1) as [i2 a | | | | ] eqn:E2; try reflexivity.
  pose proof (ok_len Hp i1 i2 a ltac:(lia) E2).
  destruct (Nat.leb_spec (length i2) (length i1)); [| lia].
  unfold sep_loop. rewrite (sep_loop_fuel k u v s p Hs Hp (length i) (S (length i2))) by lia.
  reflexivity.
Qed.
Lemma ok_sep_loop {A B} k (u : B -> bool) (v : A -> bool) s p :
  ok k u s -> ok k v p -> ok k (forallb v) (sep_loop s p).
Proof.
  intros Hs Hp i. remember (length i) as n eqn:En. revert i En.
  induction n as [n IH] using lt_wf_ind. intros i -> L. unfold ok_at.
  assert (Step := fun i => sep_loop_step k u v s p i Hs Hp).
  rewrite (Step i L).
  pose proof (Hs i L) as H. unfold ok_at in H.
  destruct (s i) as [i1 b | | | [t n m |] |] eqn:E; try tauto.
  - destruct H as ([c ->] & V & X).
    destruct (Nat.ltb_spec (length i1) (length (c ++ i1))) as [Lr | Lr].
    + assert (Le : forall x, Nat.ltb (length (i1 ++ x)) (length ((c ++ i1) ++ x)) = true).
      { intros x. apply Nat.ltb_lt. rewrite !app_length in *. lia. }
      assert (L1 : length i1 < k) by lia.
      pose proof (Hp i1 L1) as H. unfold ok_at in H.
      destruct (p i1) as [i2 a | | | [t n m |] |] eqn:E2; try tauto.
      * destruct H as ([c2 ->] & V2 & X2).
        pose proof (IH (length i2) ltac:(rewrite !app_length in *; lia) i2 eq_refl
                      ltac:(rewrite !app_length in *; lia)) as G. unfold ok_at in G.
        assert (St : forall x, length ((c ++ c2 ++ i2) ++ x) < k ->
          sep_loop s p ((c ++ c2 ++ i2) ++ x) =
          match sep_loop s p (i2 ++ x) with ROk r l => ROk r (a :: l) | e => e end).
        { intros x Lx. rewrite Step, X, Le, X2
            by (try exact Lx; rewrite !app_length in *; lia). reflexivity. }
        destruct (sep_loop s p i2) as [r' l | | | [t n m |] |] eqn:E3; try tauto.
        -- destruct G as ([c' ->] & V' & X'). repeat split.
           ++ exists (c ++ c2 ++ c'). now rewrite !app_assoc.
           ++ cbn. now rewrite V2.
           ++ intros x Lx. rewrite St, X' by (try exact Lx; rewrite !app_length in *; lia).
              reflexivity.
        -- intros x Lx. rewrite St, G by (try exact Lx; rewrite !app_length in *; lia).
           reflexivity.
        -- split; [tauto |]. rewrite app_assoc. now apply announced_app.
        -- intros x Lx. rewrite St, G by (try exact Lx; rewrite !app_length in *; lia).
           reflexivity.
      * repeat split; [now exists [] |]. intros x Lx.
        rewrite Step, X, Le, H by (try exact Lx; rewrite !app_length in *; lia).
        reflexivity.
      * split; [tauto | now apply announced_app].
      * intros x Lx. rewrite Step, X, Le, H by (try exact Lx; rewrite !app_length in *; lia).
        reflexivity.
    + intros x Lx. rewrite Step, X by exact Lx.
      destruct (Nat.ltb_spec (length (i1 ++ x)) (length ((c ++ i1) ++ x))) as [C |];
        [rewrite !app_length in *; lia | reflexivity].
  - repeat split; [now exists [] |]. intros x Lx. now rewrite Step, H by exact Lx.
  - intros x Lx. now rewrite Step, H by exact Lx.
Qed.
Lemma ok_sep_list1 {A B} k (u : B -> bool) (v : A -> bool) s p : ok k u s -> ok k v p ->
  ok k (fun l => match l with [] => false | _ => true end && forallb v l) (sep_list1 s p).
Proof.
  intros Hs Hp. apply (ok_bind k v); [exact Hp |]. intros a V.
  apply (ok_bind k (forallb v)); [now apply (ok_sep_loop k u) |]. intros l Vl.
  apply ok_ret. cbn. now rewrite V.
Qed.
Lemma ok_sep_list0 {A B} k (u : B -> bool) (v : A -> bool) s p : ok k u s -> ok k v p ->
  ok k (forallb v) (sep_list0 s p).
Proof.
  intros Hs Hp i L. unfold ok_at.
  pose proof (ok_sep_list1 k u v s p Hs Hp i L) as H1. unfold ok_at in H1.
  pose proof (Hp i L) as H. unfold ok_at in H.
  assert (E1 : forall i, p i <> RErr -> sep_list0 s p i = sep_list1 s p i).
  { intros j Hj. unfold sep_list0, sep_list1, bind, ret. destruct (p j); congruence. }
  assert (E0 : forall i, p i = RErr -> sep_list0 s p i = ROk i []).
  { intros j Hj. unfold sep_list0. now rewrite Hj. }
  destruct (p i) as [r a | | | e |] eqn:E.
  - rewrite E1 by congruence. destruct H as (_ & _ & X).
    destruct (sep_list1 s p i) as [r' l | | | [t n m |] |] eqn:E2; try tauto.
    + destruct H1 as (S & V & X1). repeat split; [exact S | |].
      * now apply andb_true_iff in V as [_ V].
      * intros x Lx. rewrite E1 by (rewrite X by exact Lx; discriminate). auto.
    + intros x Lx. rewrite E1 by (rewrite X by exact Lx; discriminate). auto.
    + intros x Lx. rewrite E1 by (rewrite X by exact Lx; discriminate). auto.
  - unfold sep_list0. now rewrite E.
  - rewrite E0 by exact E. repeat split; [now exists [] |]. intros x Lx. rewrite E0; auto.
  - unfold sep_list0. rewrite E. destruct e; [exact H |]. intros x Lx. now rewrite H.
  - tauto.
Qed.

(** *** [escaped]: the fuel never runs out, and it reads one character at a time *)
Section Esc.
Variable normal escapable : byte -> bool.
Variable control : byte.
Hypothesis control_special : normal control = false.

Fixpoint esc1 (i : bytes) : res bytes :=
  match i with
  | [] => RInc
  | x :: i' =>
    if normal x then
      match esc1 i' with ROk r s => ROk r (x :: s) | e => e end
    else if beq x control then
      match i' with
      | [] => RInc
      | y :: i'' =>
        if escapable y then
          match esc1 i'' with ROk r s => ROk r (x :: y :: s) | e => e end
        else RErr
      end
    else ROk i []
  end.

Lemma esc1_normal a r : forallb normal a = true ->
  esc1 (a ++ r) = match esc1 r with ROk r' s => ROk r' (a ++ s) | e => e end.
Proof.
  induction a as [| x a IH]; cbn; intros H; [now destruct (esc1 r) |].
  apply andb_true_iff in H as [-> H]. rewrite IH by exact H. now destruct (esc1 r).
Qed.

Lemma escaped_esc1 : forall f i, length i < f -> escaped_f f normal control escapable i = esc1 i.
Proof.
  induction f as [| f IH]; [lia |]. intros [| x i] L; [reflexivity |].
  cbn [escaped_f]. unfold take_while1. destruct (span normal (x :: i)) as [[a r] |] eqn:E.
  - pose proof (span_some _ _ _ _ E) as (Ei & Ha & y & r' & -> & Hy).
    destruct a as [| b a].
    + cbn in Ei. injection Ei as -> ->. cbn [esc1]. rewrite Hy.
      destruct (beq y control); [| reflexivity].
      destruct r' as [| z r']; [reflexivity |]. destruct (escapable z); [| reflexivity].
      destruct r' as [| w r']; [reflexivity |]. rewrite IH by (cbn in *; lia). reflexivity.
    + rewrite Ei, esc1_normal by exact Ha. rewrite IH; [reflexivity |].
      apply (f_equal (@length byte)) in Ei. rewrite app_length in Ei. cbn in *. lia.
  - apply span_none in E. rewrite <- (app_nil_r (x :: i)). rewrite esc1_normal by exact E.
    reflexivity.
Qed.

Lemma ok_escaped k (v : bytes -> bool) :
  (forall i r s, esc1 i = ROk r s -> v s = true) -> ok k v (escaped normal control escapable).
Proof.
  intros V. apply (ok_eq k v esc1).
  2:{ intros i _. unfold escaped. rewrite escaped_esc1 by lia. reflexivity. }
  intros i L. clear L. unfold ok_at.
  assert (H : match esc1 i with
              | ROk r a => (exists c, i = c ++ r) /\ forall x, esc1 (i ++ x) = ROk (r ++ x) a
              | RInc => True
              | RErr => forall x, esc1 (i ++ x) = RErr
              | _ => False
              end).
  { remember (length i) as n eqn:En. revert i En. induction n as [n IH] using lt_wf_ind.
    intros [| x i] ->; [exact I |]. cbn [esc1 app].
    destruct (normal x) eqn:Nx.
    - specialize (IH (length i) ltac:(cbn; lia) i eq_refl).
      destruct (esc1 i) as [r s | | | |]; try tauto.
      + destruct IH as [[c ->] X]. split; [now exists (x :: c) |]. intros y. now rewrite X.
      + intros y. now rewrite IH.
    - destruct (beq x control) eqn:Bx.
      + destruct i as [| y i]; [exact I |]. cbn [app]. destruct (escapable y); [| auto].
        specialize (IH (length i) ltac:(cbn; lia) i eq_refl).
        destruct (esc1 i) as [r s | | | |]; try tauto.
        * destruct IH as [[c ->] X]. split; [now exists (x :: y :: c) |].
          intros z. now rewrite X.
        * intros z. now rewrite IH.
      + split; [now exists [] | reflexivity]. }
  destruct (esc1 i) as [r s | | | f |] eqn:E; try tauto.
  - destruct H as [S X]. eauto.
  - auto.
Qed.
End Esc.

(** *** End of line *)
Lemma ok_crlf k v : v tt = true -> ok k v crlf.
Proof.
  intros V. unfold crlf. destruct quirk_crlf_relaxed; [| now apply ok_tag].
  apply (ok_bind k any); [apply (ok_opt k any); auto; now apply ok_char |]. intros _ _.
  apply (ok_bind k any); [now apply ok_char |]. intros _ _. now apply ok_ret.
Qed.

(** *** Canonical postconditions, for proof search *)
Lemma ok_tg k t : ok k any (tag t).
Proof. now apply ok_tag. Qed.
Lemma ok_kw k t : ok k any (tag_no_case t).
Proof. now apply ok_tag_no_case. Qed.
Lemma ok_ch k c : ok k any (char c).
Proof. now apply ok_char. Qed.
Lemma ok_sp k : ok k any sp.
Proof. apply ok_ch. Qed.
Lemma ok_dquote k : ok k any dquote.
Proof. apply ok_ch. Qed.
Lemma ok_eol k : ok k any crlf.
Proof. now apply ok_crlf. Qed.

(** *** Inversion of successes *)
Lemma bind_inv {A B} (p : parser A) (f : A -> parser B) i r b :
  bind p f i = ROk r b -> exists r1 a, p i = ROk r1 a /\ f a r1 = ROk r b.
Proof. unfold bind. destruct (p i); try discriminate. eauto. Qed.
Lemma pmap_inv {A B} (p : parser A) (f : A -> B) i r b :
  pmap f p i = ROk r b -> exists a, p i = ROk r a /\ b = f a.
Proof.
  intros H. apply bind_inv in H as (r1 & a & E & H). inv H. eauto.
Qed.
Lemma tag_inv t i r u : tag t i = ROk r u -> i = t ++ r.
Proof.
  revert i. induction t as [| c t IH]; cbn; intros i.
  - now intros [= -> _].
  - destruct i as [| x i]; [discriminate |]. destruct (beq_spec x c) as [-> |]; [| discriminate].
    intros H. now rewrite (IH _ H).
Qed.
Lemma sat_inv f i r b : sat f i = ROk r b -> i = b :: r /\ f b = true.
Proof.
  destruct i as [| x i]; [discriminate |]. cbn. destruct (f x) eqn:E; [| discriminate].
  now intros [= <- <-].
Qed.
Lemma char_inv c i r b : char c i = ROk r b -> i = c :: r /\ b = c.
Proof.
  intros H. apply sat_inv in H as [-> E]. apply beq_eq in E. now subst.
Qed.
Lemma take_while1_inv f i r s : take_while1 f i = ROk r s ->
  i = s ++ r /\ s <> [] /\ forallb f s = true /\ exists x r', r = x :: r' /\ f x = false.
Proof.
  unfold take_while1. destruct (span f i) as [[[| b a] r'] |] eqn:E; try discriminate.
  intros [= <- <-]. apply span_some in E as (-> & Ha & Hr). repeat split; auto. discriminate.
Qed.
Lemma take_while_inv f i r s : take_while f i = ROk r s ->
  i = s ++ r /\ forallb f s = true /\ exists x r', r = x :: r' /\ f x = false.
Proof.
  unfold take_while. destruct (span f i) as [[a r'] |] eqn:E; try discriminate.
  intros [= <- <-]. now apply span_some in E.
Qed.
Lemma opt_inv {A} (p : parser A) i r o : opt p i = ROk r o ->
  (exists a, o = Some a /\ p i = ROk r a) \/ (o = None /\ r = i /\ p i = RErr).
Proof.
  unfold opt. destruct (p i); try discriminate; intros [= <- <-]; eauto.
Qed.
Lemma crlf_inv i r u : crlf i = ROk r u -> exists eol, i = eol ++ r /\
  (eol = [bCR; bLF] \/ quirk_crlf_relaxed = true /\ eol = [bLF]).
Proof.
  unfold crlf. destruct quirk_crlf_relaxed eqn:Q; intros H.
  - apply bind_inv in H as (r1 & o & H1 & H). apply bind_inv in H as (r2 & c & H2 & H). inv H.
    apply char_inv in H2 as [-> _]. apply opt_inv in H1 as [(a & _ & H1) | (_ & H1 & _)].
    + apply char_inv in H1 as [-> _]. exists [bCR; bLF]. auto.
    + subst i. exists [bLF]. auto.
  - apply tag_inv in H. exists [bCR; bLF]. auto.
Qed.
Lemma orp_inv {A} (p q : parser A) i r a : orp p q i = ROk r a ->
  p i = ROk r a \/ p i = RErr /\ q i = ROk r a.
Proof. unfold orp. destruct (p i); try discriminate; auto. Qed.

(** An alternative after one that failed on the same input *)
Lemma ok_orp2 {A} k (v w : A -> bool) p q : ok k v p -> ok k w q ->
  (forall i r a, length i < k -> p i = RErr -> q i = ROk r a -> v a = true) ->
  ok k v (orp p q).
Proof.
  intros Hp Hq HV.
  assert (H : ok k any (orp p q))
    by (apply ok_orp; [now apply (ok_weaken k v) | now apply (ok_weaken k w)]).
  intros i L. pose proof (H i L) as G. unfold ok_at in *.
  destruct (orp p q i) as [r a | | | [t n m |] |] eqn:E; try tauto.
  destruct G as (S & _ & X). repeat split; auto.
  apply orp_inv in E as [E | [E1 E2]]; [apply (ok_post Hp i r a L E) | eauto].
Qed.

(** Parsers that are [ok] but for their postcondition *)
Lemma ok_post_intro {A} k (v w : A -> bool) p : ok k w p ->
  (forall i r a, length i < k -> p i = ROk r a -> v a = true) -> ok k v p.
Proof.
  intros H HV i L. pose proof (H i L) as G. unfold ok_at in *.
  destruct (p i) as [r a | | | [t n m |] |] eqn:E; try tauto.
  destruct G as (S & _ & X). repeat split; eauto.
Qed.

End Ok.

(** *** Proof search *)
Create HintDb okdb.
#[export] Hint Resolve ok_tg ok_kw ok_ch ok_sp ok_dquote ok_eol : okdb.

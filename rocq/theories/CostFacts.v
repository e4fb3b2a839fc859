(** Linear bounds for the step-counting combinators of CostNom.v.

    [lin q S a b]: [q] takes at most [a * length i + b] steps on [i]; and if it succeeds, at most
    [a] steps per consumed byte and [b] more, unless the rest begins like one of the patterns
    of [S] (what follows is then shown to fail at once).
    [grd q G b]: unless the input begins like one of the patterns of [G], [q] does not succeed
    and takes at most [b] steps. *)

From Verif Require Import Bytes BytesFacts Features Nom Types ParseCore CostNom CostCore.
From Coq Require Import Lia.

Local Open Scope nat_scope.

(** ** Patterns: what an input begins with *)

Definition pat := list (list byte).
Definition mem (x : byte) (s : list byte) : bool := existsb (beq x) s.
Fixpoint pm (p : pat) (i : bytes) : bool :=
  match p with
  | [] => true
  | s :: p' => match i with [] => false | x :: i' => mem x s && pm p' i' end
  end.
Definition sus (S : list pat) (i : bytes) : bool := existsb (fun p => pm p i) S.

Definition disjoint (s t : list byte) : bool := forallb (fun x => negb (mem x t)) s.
Fixpoint clash (p q : pat) : bool :=
  match p, q with
  | s :: p', t :: q' => disjoint s t || clash p' q'
  | _, _ => false
  end.
Definition disj (S G : list pat) : bool := forallb (fun p => forallb (clash p) G) S.
(** every input matching [p] matches [q] *)
Fixpoint cov (p q : pat) : bool :=
  match q with
  | [] => true
  | t :: q' => match p with [] => false | s :: p' => forallb (fun x => mem x t) s && cov p' q' end
  end.
Definition covers (S T : list pat) : bool := forallb (fun p => existsb (cov p) T) S.

Lemma mem_in x s : mem x s = true <-> In x s.
Proof.
  unfold mem. rewrite existsb_exists. split.
  - intros (y & Hy & E). apply beq_eq in E. now subst.
  - intros H. exists x. split; [exact H|apply beq_refl].
Qed.
Lemma disjoint_mem s t x : disjoint s t = true -> mem x s = true -> mem x t = false.
Proof.
  unfold disjoint. rewrite forallb_forall, mem_in. intros H K. specialize (H x K).
  now apply negb_true_iff in H.
Qed.
Lemma clash_pm p : forall q i, clash p q = true -> pm p i = true -> pm q i = false.
Proof.
  induction p as [|s p IH]; intros [|t q] i H K; try discriminate. destruct i as [|x i]; [discriminate|].
  cbn [clash pm] in *. apply andb_true_iff in K as [K1 K2]. apply orb_true_iff in H as [H|H].
  - now rewrite (disjoint_mem _ _ _ H K1).
  - rewrite (IH q i H K2). apply andb_false_r.
Qed.
Lemma disj_sus S G i : disj S G = true -> sus S i = true -> sus G i = false.
Proof.
  unfold disj, sus. intros H K. apply existsb_exists in K as (p & Hp & E).
  rewrite forallb_forall in H. specialize (H p Hp). rewrite forallb_forall in H.
  destruct (existsb (fun p => pm p i) G) eqn:X; [|reflexivity].
  apply existsb_exists in X as (q & Hq & Eq). specialize (H q Hq).
  now rewrite (clash_pm _ _ _ H E) in Eq.
Qed.
Lemma cov_pm p q : forall i, cov p q = true -> pm p i = true -> pm q i = true.
Proof.
  revert p; induction q as [|t q IH]; intros [|s p] i H K; try discriminate; try reflexivity.
  destruct i as [|x i]; [discriminate|]. cbn [cov pm] in *.
  apply andb_true_iff in H as [H1 H2]. apply andb_true_iff in K as [K1 K2].
  rewrite forallb_forall in H1. apply mem_in in K1. rewrite (H1 x K1). now apply (IH p).
Qed.
Lemma covers_sus S T i : covers S T = true -> sus S i = true -> sus T i = true.
Proof.
  unfold covers, sus. intros H K. apply existsb_exists in K as (p & Hp & E).
  rewrite forallb_forall in H. specialize (H p Hp). apply existsb_exists in H as (q & Hq & Eq).
  apply existsb_exists. exists q. split; [exact Hq|]. now apply (cov_pm p).
Qed.
Lemma sus_app S T i : sus (S ++ T) i = sus S i || sus T i.
Proof. apply existsb_app. Qed.

(** the bytes of a class *)
Definition those (f : byte -> bool) : list byte := filter f all_bytes.
Lemma those_mem f x : f x = true -> mem x (those f) = true.
Proof. intros H. apply mem_in, filter_In. split; [apply all_bytes_in|exact H]. Qed.
#[global] Arguments those : simpl never.
(** a letter in either case *)
Definition ci (c : byte) : list byte := [lower c; upper c].
Lemma ci_mem c x : beq (lower x) (lower c) = true -> mem x (ci c) = true.
Proof.
  intros H. apply beq_eq in H. apply mem_in. unfold ci.
  assert (K : (beq x (lower x) || beq x (upper x))%bool = true)
    by (apply (byte_forall (fun x => beq x (lower x) || beq x (upper x))%bool);
        vm_compute; reflexivity).
  apply orb_true_iff in K as [K|K]; apply beq_eq in K.
  - left. congruence.
  - right; left. rewrite K, <- (upper_lower x), H, upper_lower. reflexivity.
Qed.

(** ** The two judgements *)

Definition isok {A} (x : res A) : bool := match x with ROk _ _ => true | _ => false end.

Definition lin {A} (q : parser A) (S : list pat) (a b : nat) : Prop := forall i,
  match q i with
  | (ROk r _, c) =>
    length r <= length i /\ c <= a * length i + b /\
    (sus S r = false -> c + a * length r <= a * length i + b)
  | (_, c) => c <= a * length i + b
  end.
Definition grd {A} (q : parser A) (G : list pat) (b : nat) : Prop := forall i,
  sus G i = false -> isok (fst (q i)) = false /\ snd (q i) <= b.

(** What is known of a named parser *)
Record cst {A} (q : parser A) (S G : list pat) : Type := mkC {
  ca : nat; cb : nat; cg : nat;
  c_lin : lin q S ca cb;
  c_grd : grd q G cg
}.
Arguments ca {A q S G} c.
Arguments cb {A q S G} c.
Arguments cg {A q S G} c.
Arguments c_lin {A q S G} c.
Arguments c_grd {A q S G} c.
Arguments mkC {A q S G} ca cb cg c_lin c_grd.

Lemma lin_weak {A} (q : parser A) S a b S' a' b' :
  lin q S a b -> covers S S' = true -> a <= a' -> b <= b' -> lin q S' a' b'.
Proof.
  intros H Hc Ha Hb i. specialize (H i). destruct (q i) as [[r x| | | |] c];
    [|nia..]. destruct H as (H1 & H2 & H3). split; [exact H1|]. split; [nia|].
  intros HS. assert (K : sus S r = false).
  { destruct (sus S r) eqn:E; [|reflexivity]. now rewrite (covers_sus _ _ _ Hc E) in HS. }
  specialize (H3 K). nia.
Qed.
Lemma lin_S {A} (q : parser A) S S' a b :
  lin q S a b -> covers S S' = true -> lin q S' a b.
Proof. intros H K. apply (lin_weak _ S a b); auto. Qed.
Lemma lin_ab {A} (q : parser A) S a b a' b' :
  lin q S a b -> a <= a' -> b <= b' -> lin q S a' b'.
Proof.
  intros H Ha Hb i. specialize (H i). destruct (q i) as [[r x| | | |] c]; [|nia..].
  destruct H as (H1 & H2 & H3). split; [exact H1|]. split; [nia|]. intros HS. specialize (H3 HS). nia.
Qed.
Lemma grd_weak {A} (q : parser A) G G' b b' :
  grd q G b -> covers G G' = true -> b <= b' -> grd q G' b'.
Proof.
  intros H Hc Hb i Hi. assert (K : sus G i = false).
  { destruct (sus G i) eqn:E; [|reflexivity]. now rewrite (covers_sus _ _ _ Hc E) in Hi. }
  destruct (H i K). split; [assumption|lia].
Qed.
Lemma grd_any {A} (q : parser A) : grd q [[]] 0.
Proof. intros i H. discriminate. Qed.

(** ** Combinators *)

Section Comb.
Context {A B : Type}.

Lemma lin_bind0 (p : parser A) (f : A -> parser B) S1 S2 G a b1 b2 bg :
  lin p S1 a b1 -> (forall x, lin (f x) S2 a b2) -> (forall x, grd (f x) G bg) ->
  disj S1 G = true -> lin (bind p f) S2 a (b1 + b2 + bg + 1).
Proof.
  intros H K Hg D i. unfold bind. specialize (H i).
  destruct (p i) as [[r x| | | |] c]; try lia.
  destruct H as (H1 & H2 & H3). specialize (K x r). specialize (Hg x r).
  destruct (sus S1 r) eqn:E.
  - destruct (Hg (disj_sus _ _ _ D E)) as [X Y].
    destruct (f x r) as [[r' y| | | |] d]; cbn in X, Y; [discriminate|lia..].
  - specialize (H3 eq_refl). destruct (f x r) as [[r' y| | | |] d]; [|lia..].
    destruct K as (K1 & K2 & K3). split; [lia|]. split; [lia|]. intros HS. specialize (K3 HS). lia.
Qed.
Lemma lin_bind (p : parser A) (f : A -> parser B) S1 S2 G a1 a2 b1 b2 bg :
  lin p S1 a1 b1 -> (forall x, lin (f x) S2 a2 b2) -> (forall x, grd (f x) G bg) ->
  disj S1 G = true -> lin (bind p f) S2 (Nat.max a1 a2) (b1 + b2 + bg + 1).
Proof.
  intros H K Hg D. apply lin_bind0 with (S1 := S1) (G := G).
  - apply (lin_ab _ _ a1 b1); [exact H|lia..].
  - intros x. apply (lin_ab _ _ a2 b2); [apply K|lia..].
  - exact Hg.
  - exact D.
Qed.
(** after a parser that is never slow no guard is needed *)
Lemma lin_bind_nil (p : parser A) (f : A -> parser B) S2 a1 a2 b1 b2 :
  lin p [] a1 b1 -> (forall x, lin (f x) S2 a2 b2) ->
  lin (bind p f) S2 (Nat.max a1 a2) (b1 + b2 + 0 + 1).
Proof.
  intros H K. apply lin_bind with (S1 := []) (G := [[]]); auto. intros x. apply grd_any.
Qed.
(** where nothing needs to be charged to consumed bytes *)
Lemma lin_bind_all (p : parser A) (f : A -> parser B) S1 S2 a1 a2 b1 b2 :
  lin p S1 a1 b1 -> (forall x, lin (f x) S2 a2 b2) ->
  lin (bind p f) [[]] (a1 + a2) (b1 + b2 + 1).
Proof.
  intros H K i. unfold bind. specialize (H i).
  destruct (p i) as [[r x| | | |] c]; try lia.
  destruct H as (H1 & H2 & H3). specialize (K x r).
  destruct (f x r) as [[r' y| | | |] d]; [|nia..].
  destruct K as (K1 & K2 & K3). split; [lia|]. split; [nia|]. discriminate.
Qed.
Lemma grd_bind (p : parser A) (f : A -> parser B) G b : grd p G b -> grd (bind p f) G (b + 1).
Proof.
  intros H i Hi. destruct (H i Hi) as [X Y]. unfold bind.
  destruct (p i) as [[r x| | | |] c]; cbn in *; [discriminate|split; [reflexivity|lia]..].
Qed.

Lemma lin_ret (x : A) : lin (ret x) [] 0 1.
Proof. intros i. cbn. lia. Qed.
Lemma lin_perr : lin (@perr A) [] 0 1.
Proof. intros i. cbn. lia. Qed.
Lemma lin_pfail : lin (@pfail A) [] 0 1.
Proof. intros i. cbn. lia. Qed.
Lemma lin_panic : lin (@panic A) [] 0 1.
Proof. intros i. cbn. lia. Qed.
Lemma grd_perr : grd (@perr A) [] 1.
Proof. intros i _. cbn. split; [reflexivity|lia]. Qed.
Lemma grd_pfail : grd (@pfail A) [] 1.
Proof. intros i _. cbn. split; [reflexivity|lia]. Qed.
Lemma grd_panic : grd (@panic A) [] 1.
Proof. intros i _. cbn. split; [reflexivity|lia]. Qed.

Definition keeps (f : A -> bytes -> res B) : Prop :=
  forall x r, match f x r with ROk r' _ => r' = r | _ => True end.
Lemma lin_conv (p : parser A) (f : A -> bytes -> res B) S a b :
  keeps f -> lin p S a b -> lin (conv p f) S (a + 1) (b + 1).
Proof.
  intros Hf H i. unfold conv. specialize (H i). destruct (p i) as [[r x| | | |] c]; try lia.
  destruct H as (H1 & H2 & H3). specialize (Hf x r).
  destruct (f x r) as [r' y| | | |]; try lia. subst r'.
  split; [exact H1|]. split; [lia|]. intros HS. specialize (H3 HS). lia.
Qed.
Lemma grd_conv (p : parser A) (f : A -> bytes -> res B) G b : grd p G b -> grd (conv p f) G (b + 1).
Proof.
  intros H i Hi. destruct (H i Hi) as [X Y]. unfold conv.
  destruct (p i) as [[r x| | | |] c]; cbn in *; [discriminate|split; [reflexivity|lia]..].
Qed.
Lemma lin_pmap (f : A -> B) p S a b : lin p S a b -> lin (pmap f p) S (a + 1) (b + 1).
Proof. apply lin_conv. intros x r. reflexivity. Qed.
Lemma grd_pmap (f : A -> B) p G b : grd p G b -> grd (pmap f p) G (b + 1).
Proof. apply grd_conv. Qed.
Lemma lin_map_res (f : A -> option B) p S a b : lin p S a b -> lin (map_res p f) S (a + 1) (b + 1).
Proof. apply lin_conv. intros x r. destruct (f x); [reflexivity|exact I]. Qed.
Lemma grd_map_res (f : A -> option B) p G b : grd p G b -> grd (map_res p f) G (b + 1).
Proof. apply grd_conv. Qed.
Lemma lin_expect (f : A -> option B) p S a b : lin p S a b -> lin (expect p f) S (a + 1) (b + 1).
Proof. apply lin_conv. intros x r. destruct (f x); [reflexivity|exact I]. Qed.
Lemma grd_expect (f : A -> option B) p G b : grd p G b -> grd (expect p f) G (b + 1).
Proof. apply grd_conv. Qed.

Lemma lin_tail (p : parser A) (f : A -> parser B) S a b k :
  lin p S a b -> (forall x r, snd (f x r) <= k /\
    match fst (f x r) with ROk r' _ => r' = r | _ => True end) ->
  lin (bind p f) S a (b + k + 1).
Proof.
  intros H K i. unfold bind. specialize (H i). destruct (p i) as [[r x| | | |] c]; try lia.
  destruct H as (H1 & H2 & H3). destruct (K x r) as [K1 K2].
  destruct (f x r) as [[r' y| | | |] d]; cbn in K1, K2; [|lia..]. subst r'.
  split; [exact H1|]. split; [lia|]. intros HS. specialize (H3 HS). lia.
Qed.
Lemma lin_value (y : B) (p : parser A) S a b : lin p S a b -> lin (value y p) S a (b + 1 + 1).
Proof. intros H. apply lin_tail; [exact H|]. intros x r. cbn. split; [lia|reflexivity]. Qed.
Lemma grd_value (y : B) (p : parser A) G b : grd p G b -> grd (value y p) G (b + 1).
Proof. apply grd_bind. Qed.
Lemma lin_bind_ret (g : A -> B) (p : parser A) S a b :
  lin p S a b -> lin (bind p (fun x => ret (g x))) S a (b + 1 + 1).
Proof. intros H. apply lin_tail; [exact H|]. intros x r. cbn. split; [lia|reflexivity]. Qed.
Lemma lin_gate t (p : parser A) S a b : lin p S a b -> lin (gate t p) S a (b + 1).
Proof.
  intros H. destruct t; cbn [gate]; [apply (lin_ab _ _ a b); [exact H|lia..]|].
  intros i. cbn. lia.
Qed.
Lemma grd_gate t (p : parser A) G b : grd p G b -> grd (gate t p) G (b + 1).
Proof.
  intros H i Hi. destruct t; cbn; [|split; [reflexivity|lia]]. destruct (H i Hi). split; [assumption|lia].
Qed.

Lemma lin_orp0 (p q : parser A) S1 S2 Gp Gq a b1 b2 bg bq :
  lin p S1 a b1 -> grd p Gp bg -> lin q S2 a b2 -> grd q Gq bq -> disj Gp Gq = true ->
  lin (orp p q) (S1 ++ S2) a (b1 + b2 + bg + bq + 1).
Proof.
  intros H Hg K Kg D i. unfold orp. specialize (H i). specialize (Hg i).
  destruct (p i) as [[r x| | | |] c]; try lia.
  - destruct H as (H1 & H2 & H3). split; [exact H1|]. split; [lia|]. rewrite sus_app.
    intros HS. apply orb_false_iff in HS as [HS _]. specialize (H3 HS). lia.
  - specialize (K i). destruct (sus Gp i) eqn:E.
    + destruct (Kg i (disj_sus _ _ _ D E)) as [X Y].
      destruct (q i) as [[r x| | | |] d]; cbn in X, Y; [discriminate|lia..].
    + destruct (Hg eq_refl) as [_ Y]; cbn in Y.
      destruct (q i) as [[r x| | | |] d]; [|lia..]. destruct K as (K1 & K2 & K3).
      split; [exact K1|]. split; [lia|]. rewrite sus_app.
      intros HS. apply orb_false_iff in HS as [_ HS]. specialize (K3 HS). lia.
Qed.
Lemma lin_orp (p q : parser A) S1 S2 Gp Gq a1 a2 b1 b2 bg bq :
  lin p S1 a1 b1 -> grd p Gp bg -> lin q S2 a2 b2 -> grd q Gq bq -> disj Gp Gq = true ->
  lin (orp p q) (S1 ++ S2) (Nat.max a1 a2) (b1 + b2 + bg + bq + 1).
Proof.
  intros H Hg K Kg D. apply lin_orp0 with (Gp := Gp) (Gq := Gq); auto.
  - apply (lin_ab _ _ a1 b1); [exact H|lia..].
  - apply (lin_ab _ _ a2 b2); [exact K|lia..].
Qed.
(** [p] fails fast, wherever it fails *)
Definition ff (p : parser A) (b : nat) : Prop := forall i, fst (p i) = RErr -> snd (p i) <= b.
Lemma lin_orp_ff (p q : parser A) S1 S2 a1 a2 b1 b2 bf :
  lin p S1 a1 b1 -> ff p bf -> lin q S2 a2 b2 ->
  lin (orp p q) (S1 ++ S2) (Nat.max a1 a2) (b1 + b2 + bf + 1).
Proof.
  intros H Hf K. apply (lin_ab _ _ _ _ (Nat.max a1 a2) b1) in H; [|lia..].
  apply (lin_ab _ _ _ _ (Nat.max a1 a2) b2) in K; [|lia..]. generalize (Nat.max a1 a2), H, K.
  clear H K. intros a H K i. unfold orp. specialize (H i). specialize (Hf i).
  destruct (p i) as [[r x| | | |] c]; try lia.
  - destruct H as (H1 & H2 & H3). split; [exact H1|]. split; [lia|]. rewrite sus_app.
    intros HS. apply orb_false_iff in HS as [HS _]. specialize (H3 HS). lia.
  - specialize (K i). specialize (Hf eq_refl). cbn in Hf.
    destruct (q i) as [[r x| | | |] d]; [|lia..]. destruct K as (K1 & K2 & K3).
    split; [exact K1|]. split; [lia|]. rewrite sus_app.
    intros HS. apply orb_false_iff in HS as [_ HS]. specialize (K3 HS). lia.
Qed.
(** [p] may fail slowly and [q] then succeed, if that leaves a rest like one of [S] *)
Lemma lin_orp_sus (p q : parser A) S1 S2 S Gp a1 a2 b1 b2 bg :
  lin p S1 a1 b1 -> grd p Gp bg -> lin q S2 a2 b2 ->
  (forall i r x c, sus Gp i = true -> q i = (ROk r x, c) -> sus S r = true) ->
  lin (orp p q) (S ++ S1 ++ S2) (a1 + a2) (b1 + b2 + bg + 1).
Proof.
  intros H Hg K HS i. unfold orp. specialize (H i). specialize (Hg i).
  destruct (p i) as [[r x| | | |] c]; try nia.
  - destruct H as (H1 & H2 & H3). split; [exact H1|]. split; [nia|]. rewrite !sus_app.
    intros Hs. apply orb_false_iff in Hs as [_ Hs]. apply orb_false_iff in Hs as [Hs _].
    specialize (H3 Hs). nia.
  - specialize (K i). specialize (HS i). destruct (q i) as [[r x| | | |] d]; [|nia..].
    destruct K as (K1 & K2 & K3). split; [exact K1|]. split; [nia|]. rewrite !sus_app.
    intros Hs. apply orb_false_iff in Hs as [Hs0 Hs]. apply orb_false_iff in Hs as [_ Hs].
    specialize (K3 Hs). destruct (sus Gp i) eqn:E.
    + specialize (HS r x d eq_refl eq_refl). congruence.
    + destruct (Hg eq_refl) as [_ Y]; cbn in Y. nia.
Qed.
Lemma lin_orp_all (p q : parser A) S1 S2 a1 a2 b1 b2 :
  lin p S1 a1 b1 -> lin q S2 a2 b2 -> lin (orp p q) [[]] (a1 + a2) (b1 + b2 + 1).
Proof.
  intros H K i. unfold orp. specialize (H i). destruct (p i) as [[r x| | | |] c]; try nia.
  - destruct H as (H1 & H2 & H3). split; [exact H1|]. split; [nia|]. discriminate.
  - specialize (K i). destruct (q i) as [[r x| | | |] d]; [|nia..]. destruct K as (K1 & K2 & K3).
    split; [exact K1|]. split; [nia|]. discriminate.
Qed.
Lemma grd_orp (p q : parser A) Gp Gq b1 b2 :
  grd p Gp b1 -> grd q Gq b2 -> grd (orp p q) (Gp ++ Gq) (b1 + b2 + 1).
Proof.
  intros H K i Hi. rewrite sus_app in Hi. apply orb_false_iff in Hi as [Hp Hq].
  destruct (H i Hp) as [X Y], (K i Hq) as [X' Y']. unfold orp.
  destruct (p i) as [[r x| | | |] c]; cbn in X, Y; [discriminate| |
    |split; [reflexivity|cbn; lia]..]; [split; [reflexivity|cbn; lia]|].
  destruct (q i) as [[r x| | | |] d]; cbn in *; [discriminate|split; [reflexivity|lia]..].
Qed.
Lemma lin_opt (p : parser A) S G a b bg :
  lin p S a b -> grd p G bg -> lin (opt p) (S ++ G) a (b + bg + 1).
Proof.
  intros H Hg i. unfold opt. specialize (H i). specialize (Hg i).
  destruct (p i) as [[r x| | | |] c]; try lia.
  - destruct H as (H1 & H2 & H3). split; [exact H1|]. split; [lia|]. rewrite sus_app.
    intros HS. apply orb_false_iff in HS as [HS _]. specialize (H3 HS). lia.
  - split; [lia|]. split; [lia|]. rewrite sus_app. intros HS.
    apply orb_false_iff in HS as [_ HS]. destruct (Hg HS) as [_ Y]; cbn in Y. lia.
Qed.
Lemma lin_recognize (p : parser A) S a b : lin p S a b -> lin (recognize p) S a (b + 1).
Proof.
  intros H i. unfold recognize. specialize (H i). destruct (p i) as [[r x| | | |] c]; try lia.
  destruct H as (H1 & H2 & H3). split; [exact H1|]. split; [lia|]. intros HS. specialize (H3 HS). lia.
Qed.
Lemma grd_recognize (p : parser A) G b : grd p G b -> grd (recognize p) G (b + 1).
Proof.
  intros H i Hi. destruct (H i Hi) as [X Y]. unfold recognize.
  destruct (p i) as [[r x| | | |] c]; cbn in *; [discriminate|split; [reflexivity|lia]..].
Qed.
Lemma lin_peek (p : parser A) S a b : lin p S a b -> lin (peek p) [[]] a (b + 1).
Proof.
  intros H i. unfold peek. specialize (H i). destruct (p i) as [[r x| | | |] c]; try lia.
  split; [lia|]. split; [lia|]. discriminate.
Qed.
End Comb.

Lemma lin_vecn {A} n (p : parser (list A)) S a b : lin p S a b -> lin (vecn n p) S a (b + 1 + 1).
Proof.
  intros H. apply lin_tail; [exact H|]. intros x r.
  destruct (Nat.leb n (length x)); cbn; split; auto.
Qed.
Lemma grd_vecn {A} n (p : parser (list A)) G b : grd p G b -> grd (vecn n p) G (b + 1).
Proof. apply grd_bind. Qed.

(** ** Loops *)

Section Loops.
Context {A B : Type}.

Lemma lin_many0_f (p : parser A) G a b bg n : lin p [] a b -> grd p G bg ->
  lin (many0_f n p) G (a + b + 1) (b + bg + 1).
Proof.
  intros H Hg. induction n as [|n IH]; intros i; [cbn; lia|]. cbn [many0_f].
  specialize (H i). specialize (Hg i). destruct (p i) as [[r x| | | |] c]; try nia.
  - destruct H as (H1 & H2 & H3). specialize (H3 eq_refl).
    destruct (Nat.ltb (length r) (length i)) eqn:E; [|nia]. apply Nat.ltb_lt in E.
    specialize (IH r). assert (X : c + 1 + (a + b + 1) * length r <= (a + b + 1) * length i) by nia.
    destruct (many0_f n p r) as [[r' l| | | |] d]; [|lia..]. destruct IH as (I1 & I2 & I3).
    split; [lia|]. split; [lia|]. intros HS. specialize (I3 HS). lia.
  - split; [lia|]. split; [nia|]. intros HS. destruct (Hg HS) as [_ Y]. cbn in Y. lia.
Qed.
Lemma lin_many0 (p : parser A) G a b bg : lin p [] a b -> grd p G bg ->
  lin (many0 p) G (a + b + 1) (b + bg + 1).
Proof. intros H Hg i. now apply lin_many0_f. Qed.
Lemma lin_many_m (p : parser A) G a b bg m : lin p [] a b -> grd p G bg ->
  lin (many_m m p) G (a + b + 1) (b + bg + 1).
Proof.
  intros H Hg. induction m as [|m IH]; [now apply lin_many0|]. intros i. cbn [many_m].
  specialize (H i). specialize (Hg i). destruct (p i) as [[r x| | | |] c]; try nia.
  destruct H as (H1 & H2 & H3). specialize (H3 eq_refl).
  destruct (Nat.ltb (length r) (length i)) eqn:E; [|nia]. apply Nat.ltb_lt in E.
  specialize (IH r). assert (X : c + 1 + (a + b + 1) * length r <= (a + b + 1) * length i) by nia.
  destruct (many_m m p r) as [[r' l| | | |] d]; [|lia..]. destruct IH as (I1 & I2 & I3).
  split; [lia|]. split; [lia|]. intros HS. specialize (I3 HS). lia.
Qed.
Lemma grd_many_m (p : parser A) G b m : grd p G b -> grd (many_m (S m) p) G (b + 1).
Proof.
  intros H i Hi. destruct (H i Hi) as [X Y]. cbn [many_m].
  destruct (p i) as [[r x| | | |] c]; cbn in *; [discriminate|split; [reflexivity|lia]..].
Qed.

(** a separator of one byte *)
Definition issep (s : parser B) (cs : list byte) : Prop := forall i,
  snd (s i) <= 2 /\
  match fst (s i) with
  | ROk r _ => exists x, i = x :: r /\ mem x cs = true
  | _ => True
  end.

Lemma lin_sep_loop_f (s : parser B) (p : parser A) cs S G a b bg n :
  issep s cs -> lin p S a b -> grd p G bg -> disj S [[cs]] = true ->
  lin (sep_loop_f n s p) (S ++ map (cons cs) G) (a + b + 3) (b + bg + 3).
Proof.
  intros Hsep H Hg D. induction n as [|n IH]; intros i; [cbn; lia|]. cbn [sep_loop_f].
  pose proof (Hsep i) as Hs. destruct (s i) as [[i1 z| | | |] c]; cbn [fst snd] in Hs;
    destruct Hs as [Hc Hs]; try lia.
  destruct Hs as (x & -> & Hx). cbn [length]. rewrite (proj2 (Nat.ltb_lt _ _)) by lia.
  pose proof (H i1) as Hp. specialize (Hg i1).
  destruct (p i1) as [[r y| | | |] d]; try nia.
  - destruct Hp as (H1 & H2 & H3). rewrite (proj2 (Nat.leb_le _ _)) by lia.
    destruct (sus S r) eqn:E.
    + (* the item was slow: the next separator fails *)
      assert (X : snd (sep_loop_f n s p r) <= 3 /\
                  match fst (sep_loop_f n s p r) with ROk r' _ => r' = r | _ => True end).
      { destruct n as [|n]; [cbn; split; [lia|exact I]|]. cbn [sep_loop_f].
        pose proof (disj_sus _ _ _ D E) as N. pose proof (Hsep r) as Hs.
        destruct (s r) as [[r1 z1| | | |] c1]; cbn [fst snd] in *; destruct Hs as [Hc1 Hs];
          try (split; [lia|exact I]); [|split; [lia|reflexivity]].
        destruct Hs as (x1 & -> & Hx1). cbn in N. now rewrite Hx1 in N. }
      destruct X as [X1 X2]. destruct (sep_loop_f n s p r) as [[r' l| | | |] e]; cbn [fst snd] in *;
        [|nia..]. subst r'. split; [lia|]. split; [nia|]. rewrite sus_app, E. discriminate.
    + specialize (H3 eq_refl). specialize (IH r).
      assert (X : c + d + 1 + (a + b + 3) * length r <= (a + b + 3) * Datatypes.S (length i1)) by nia.
      destruct (sep_loop_f n s p r) as [[r' l| | | |] e]; [|lia..]. destruct IH as (I1 & I2 & I3).
      split; [lia|]. split; [lia|]. intros HS. specialize (I3 HS). lia.
  - cbn [length]; split; [lia|]. split; [nia|]. intros HS. rewrite sus_app in HS.
    apply orb_false_iff in HS as [_ HS].
    assert (N : sus G i1 = false).
    { destruct (sus G i1) eqn:E; [|reflexivity]. unfold sus in *.
      apply existsb_exists in E as (q & Hq & Eq).
      assert (X : existsb (fun p => pm p (x :: i1)) (map (cons cs) G) = true).
      { apply existsb_exists. exists (cs :: q). split; [now apply in_map|]. cbn [pm]. now rewrite Hx. }
      congruence. }
    destruct (Hg N) as [_ Y]; cbn in Y. lia.
Qed.
Lemma lin_sep_loop (s : parser B) (p : parser A) cs S G a b bg :
  issep s cs -> lin p S a b -> grd p G bg -> disj S [[cs]] = true ->
  lin (sep_loop s p) (S ++ map (cons cs) G) (a + b + 3) (b + bg + 3).
Proof. intros Hs H Hg D i. now apply lin_sep_loop_f. Qed.
Lemma lin_sep_list0 (s : parser B) (p : parser A) cs S G a b bg :
  issep s cs -> lin p S a b -> grd p G bg -> disj S [[cs]] = true ->
  lin (sep_list0 s p) (S ++ map (cons cs) G ++ G) (a + b + 3) (b + b + bg + 6).
Proof.
  intros Hsep H Hg D i. unfold sep_list0. pose proof (H i) as Hp. pose proof (Hg i) as Hgi.
  destruct (p i) as [[r y| | | |] c]; try nia.
  - destruct Hp as (H1 & H2 & H3). pose proof (lin_sep_loop _ _ _ _ _ _ _ _ Hsep H Hg D r) as L.
    destruct (sus S r) eqn:E.
    + assert (X : snd (sep_loop s p r) <= 3 /\
                  match fst (sep_loop s p r) with ROk r' _ => r' = r | _ => True end).
      { unfold sep_loop. cbn [sep_loop_f].
        pose proof (disj_sus _ _ _ D E) as N. pose proof (Hsep r) as Hs.
        destruct (s r) as [[r1 z1| | | |] c1]; cbn [fst snd] in *; destruct Hs as [Hc1 Hs];
          try (split; [lia|exact I]); [|split; [lia|reflexivity]].
        destruct Hs as (x1 & -> & Hx1). cbn in N. now rewrite Hx1 in N. }
      destruct X as [X1 X2]. destruct (sep_loop s p r) as [[r' l| | | |] e]; cbn [fst snd] in *;
        [|nia..]. subst r'. split; [lia|]. split; [nia|]. rewrite sus_app, E. discriminate.
    + specialize (H3 eq_refl).
      assert (X : c + (a + b + 3) * length r <= (a + b + 3) * length i + b) by nia.
      destruct (sep_loop s p r) as [[r' l| | | |] e]; [|lia..]. destruct L as (I1 & I2 & I3).
      split; [lia|]. split; [lia|]. rewrite app_assoc, sus_app. intros HS.
      apply orb_false_iff in HS as [HS _]. specialize (I3 HS). lia.
  - split; [lia|]. split; [nia|]. rewrite app_assoc, sus_app. intros HS.
    apply orb_false_iff in HS as [_ HS]. destruct (Hgi HS) as [_ Y]; cbn in Y. lia.
Qed.
(** Items may be slow at the end of the list: the guard of the loop is then its separator *)
Lemma lin_sep_list1 (s : parser B) (p : parser A) cs S G a b bg :
  issep s cs -> lin p S a b -> grd p G bg -> disj S [[cs]] = true ->
  lin (sep_list1 s p) (S ++ map (cons cs) G) (a + b + 3) (b + b + bg + 9).
Proof.
  intros Hsep H Hg D i. unfold sep_list1, bind. pose proof (H i) as Hp.
  destruct (p i) as [[r y| | | |] c]; try nia.
  destruct Hp as (H1 & H2 & H3). pose proof (lin_sep_loop _ _ _ _ _ _ _ _ Hsep H Hg D r) as L.
  destruct (sus S r) eqn:E.
  - assert (X : snd (sep_loop s p r) <= 3 /\
                match fst (sep_loop s p r) with ROk r' _ => r' = r | _ => True end).
    { unfold sep_loop. cbn [sep_loop_f].
      pose proof (disj_sus _ _ _ D E) as N. pose proof (Hsep r) as Hs.
      destruct (s r) as [[r1 z1| | | |] c1]; cbn [fst snd] in *; destruct Hs as [Hc1 Hs];
        try (split; [lia|exact I]); [|split; [lia|reflexivity]].
      destruct Hs as (x1 & -> & Hx1). cbn in N. now rewrite Hx1 in N. }
    destruct X as [X1 X2]. destruct (sep_loop s p r) as [[r' l| | | |] e]; cbn [fst snd ret] in *;
      [|nia..]. subst r'. split; [lia|]. split; [nia|]. rewrite sus_app, E. discriminate.
  - specialize (H3 eq_refl).
    assert (X : c + (a + b + 3) * length r <= (a + b + 3) * length i + b) by nia.
    destruct (sep_loop s p r) as [[r' l| | | |] e]; cbn [ret]; [|lia..]. destruct L as (I1 & I2 & I3).
    split; [lia|]. split; [lia|]. intros HS. specialize (I3 HS). lia.
Qed.
Lemma grd_sep_list1 (s : parser B) (p : parser A) G b :
  grd p G b -> grd (sep_list1 s p) G (b + 1).
Proof. apply grd_bind. Qed.
End Loops.

Lemma lin_many1 {A} (p : parser A) G a b bg : lin p [] a b -> grd p G bg ->
  lin (many1 p) G (a + b + 1) (b + b + bg + 5).
Proof.
  intros H Hg i. unfold many1, bind. pose proof (H i) as Hp.
  destruct (p i) as [[r y| | | |] c]; try nia.
  destruct Hp as (H1 & H2 & H3). specialize (H3 eq_refl).
  pose proof (lin_many0 _ _ _ _ _ H Hg r) as L.
  assert (X : c + (a + b + 1) * length r <= (a + b + 1) * length i + b) by nia.
  destruct (many0 p r) as [[r' l| | | |] e]; cbn [ret]; [|lia..]. destruct L as (I1 & I2 & I3).
  split; [lia|]. split; [lia|]. intros HS. specialize (I3 HS). lia.
Qed.
Lemma grd_many1 {A} (p : parser A) G b : grd p G b -> grd (many1 p) G (b + 1).
Proof. apply grd_bind. Qed.

(** ** Tokens *)

Definition pat_tag (t : bytes) : pat := map (fun c => [c]) t.
Definition pat_ci (t : bytes) : pat := map ci t.

Lemma lin_tag t : lin (tag t) [] 0 (length t + 1).
Proof.
  induction t as [|c t IH]; intros i; [cbn; lia|]. destruct i as [|x i]; [cbn; lia|].
  cbn [tag]. destruct (beq x c); [|cbn; lia]. specialize (IH i). unfold tick.
  destruct (tag t i) as [[r y| | | |] d]; cbn [length] in *; lia.
Qed.
Lemma grd_tag t : grd (tag t) [pat_tag t] (length t + 1).
Proof.
  intros i Hi. unfold sus in Hi. cbn [existsb] in Hi. rewrite orb_false_r in Hi. revert i Hi.
  induction t as [|c t IH]; intros i Hi; [discriminate|]. destruct i as [|x i]; [cbn; split; [reflexivity|lia]|].
  cbn [tag]. cbn in Hi. rewrite orb_false_r in Hi.
  destruct (beq x c); [|cbn; split; [reflexivity|lia]]. cbn in Hi. destruct (IH i Hi) as [X Y].
  unfold tick. destruct (tag t i) as [z d]; cbn [fst snd length] in *. split; [exact X|lia].
Qed.
Lemma lin_kw t : lin (tag_no_case t) [] 0 (length t + 1).
Proof.
  induction t as [|c t IH]; intros i; [cbn; lia|]. destruct i as [|x i]; [cbn; lia|].
  cbn [tag_no_case]. destruct (beq (lower x) (lower c)); [|cbn; lia]. specialize (IH i). unfold tick.
  destruct (tag_no_case t i) as [[r y| | | |] d]; cbn [length] in *; lia.
Qed.
Lemma grd_kw t : grd (tag_no_case t) [pat_ci t] (length t + 1).
Proof.
  intros i Hi. unfold sus in Hi. cbn [existsb] in Hi. rewrite orb_false_r in Hi. revert i Hi.
  induction t as [|c t IH]; intros i Hi; [discriminate|]. destruct i as [|x i]; [cbn; split; [reflexivity|lia]|].
  cbn [tag_no_case]. cbn [pat_ci map pm] in Hi.
  destruct (beq (lower x) (lower c)) eqn:E; [|cbn; split; [reflexivity|lia]].
  rewrite (ci_mem _ _ E) in Hi. cbn [andb] in Hi. destruct (IH i Hi) as [X Y].
  unfold tick. destruct (tag_no_case t i) as [z d]; cbn [fst snd length] in *. split; [exact X|lia].
Qed.
Lemma pm_app p q : forall i, pm (p ++ q) i = pm p i && pm q (skipn (length p) i).
Proof.
  induction p as [|s p IH]; intros i; [reflexivity|]. destruct i as [|x i]; [reflexivity|].
  cbn [app pm length skipn]. rewrite IH. apply andb_assoc.
Qed.
Lemma tag_rest t : forall i r u c, tag t i = (ROk r u, c) ->
  r = skipn (length t) i /\ pm (pat_tag t) i = true.
Proof.
  induction t as [|x t IH]; intros i r u c H; [cbn in H; injection H as <- _; auto|].
  destruct i as [|y i]; [discriminate|]. cbn [tag] in H.
  destruct (beq y x) eqn:E; [|discriminate]. unfold tick in H. destruct (tag t i) as [z d] eqn:T.
  injection H as -> _. destruct (IH _ _ _ _ T) as [-> P]. split; [reflexivity|].
  cbn [pat_tag map pm mem existsb]. rewrite E. exact P.
Qed.
Lemma kw_rest t : forall i r u c, tag_no_case t i = (ROk r u, c) ->
  r = skipn (length t) i /\ pm (pat_ci t) i = true.
Proof.
  induction t as [|x t IH]; intros i r u c H; [cbn in H; injection H as <- _; auto|].
  destruct i as [|y i]; [discriminate|]. cbn [tag_no_case] in H.
  destruct (beq (lower y) (lower x)) eqn:E; [|discriminate]. unfold tick in H.
  destruct (tag_no_case t i) as [z d] eqn:T. injection H as -> _.
  destruct (IH _ _ _ _ T) as [-> P]. split; [reflexivity|].
  cbn [pat_ci map pm]. rewrite (ci_mem _ _ E). exact P.
Qed.
Lemma sus_map_app p G i : pm p i = true -> sus (map (app p) G) i = sus G (skipn (length p) i).
Proof.
  intros H. unfold sus. induction G as [|g G IH]; [reflexivity|]. cbn [map existsb].
  now rewrite IH, pm_app, H.
Qed.
Lemma grd_kw_bind {A} t (f : unit -> parser A) G b :
  (forall u, grd (f u) G b) -> grd (bind (tag_no_case t) f) (map (app (pat_ci t)) G) (length t + b + 2).
Proof.
  intros H i Hi. unfold bind. pose proof (lin_kw t i) as L.
  destruct (tag_no_case t i) as [[r u| | | |] c] eqn:T;
    try (cbn; split; [reflexivity|lia]).
  destruct (kw_rest _ _ _ _ _ T) as [-> P]. rewrite (sus_map_app _ _ _ P) in Hi.
  unfold pat_ci in Hi. rewrite map_length in Hi. destruct (H u _ Hi) as [X Y].
  destruct (f u (skipn (length t) i)) as [y d]; cbn [fst snd] in *. split; [exact X|lia].
Qed.
Lemma grd_tag_bind {A} t (f : unit -> parser A) G b :
  (forall u, grd (f u) G b) -> grd (bind (tag t) f) (map (app (pat_tag t)) G) (length t + b + 2).
Proof.
  intros H i Hi. unfold bind. pose proof (lin_tag t i) as L.
  destruct (tag t i) as [[r u| | | |] c] eqn:T;
    try (cbn; split; [reflexivity|lia]).
  destruct (tag_rest _ _ _ _ _ T) as [-> P]. rewrite (sus_map_app _ _ _ P) in Hi.
  unfold pat_tag in Hi. rewrite map_length in Hi. destruct (H u _ Hi) as [X Y].
  destruct (f u (skipn (length t) i)) as [y d]; cbn [fst snd] in *. split; [exact X|lia].
Qed.

Lemma lin_sat f : lin (sat f) [] 0 1.
Proof. intros [|x i]; cbn; [lia|]. destruct (f x); lia. Qed.
Lemma grd_sat f : grd (sat f) [[those f]] 1.
Proof.
  intros [|x i] H; [cbn; split; [reflexivity|lia]|]. cbn. destruct (f x) eqn:E; [|cbn; split; [reflexivity|lia]].
  unfold sus, pm in H; cbn [existsb] in H; now rewrite (those_mem _ _ E) in H.
Qed.
Lemma lin_char c : lin (char c) [] 0 1.
Proof. apply lin_sat. Qed.
Lemma grd_char c : grd (char c) [[[c]]] 1.
Proof.
  intros [|x i] H; [cbn; split; [reflexivity|lia]|]. cbn in H |- *.
  destruct (beq x c) eqn:E; [discriminate|cbn; split; [reflexivity|lia]].
Qed.
Lemma issep_char c : issep (char c) [c].
Proof.
  intros [|x i]; cbn; [split; [lia|exact I]|]. destruct (beq x c) eqn:E; cbn; [|split; [lia|exact I]].
  split; [lia|]. exists x. split; [reflexivity|]. now rewrite E.
Qed.
Lemma issep_tag c : issep (tag [c]) [c].
Proof.
  intros [|x i]; cbn; [split; [lia|exact I]|]. destruct (beq x c) eqn:E; cbn; [|split; [lia|exact I]].
  split; [lia|]. exists x. split; [reflexivity|]. now rewrite E.
Qed.

Lemma span_split f i a r : span f i = Some (a, r) -> i = a ++ r.
Proof.
  revert a r; induction i as [|x i IH]; intros a r H; [discriminate|]. cbn in H.
  destruct (f x); [|injection H as <- <-; reflexivity].
  destruct (span f i) as [[a' r']|]; [|discriminate]. injection H as <- <-. cbn.
  now rewrite <- (IH _ _ eq_refl).
Qed.
Lemma span_all f i a r : span f i = Some (a, r) -> forallb f a = true.
Proof.
  revert a r; induction i as [|x i IH]; intros a r H; [discriminate|]. cbn in H.
  destruct (f x) eqn:E; [|injection H as <- <-; reflexivity].
  destruct (span f i) as [[a' r']|]; [|discriminate]. injection H as <- <-. cbn.
  now rewrite E, (IH _ _ eq_refl).
Qed.
Lemma span_none f i : span f i = None -> forallb f i = true.
Proof.
  induction i as [|x i IH]; intros H; [reflexivity|]. cbn in *. destruct (f x); [|discriminate].
  destruct (span f i) as [[a' r']|]; [discriminate|]. now apply IH.
Qed.
Lemma lin_take_while f : lin (take_while f) [] 1 2.
Proof.
  intros i. unfold take_while, span_cost. destruct (span f i) as [[a r]|] eqn:E; [|lia].
  apply span_split in E. subst i. rewrite app_length. lia.
Qed.
Lemma lin_take_while1 f : lin (take_while1 f) [] 1 2.
Proof.
  intros i. unfold take_while1, span_cost. destruct (span f i) as [[a r]|] eqn:E; [|lia].
  apply span_split in E. subst i. destruct a as [|x a]; [cbn; lia|]. rewrite app_length. lia.
Qed.
Lemma grd_take_while1 f : grd (take_while1 f) [[those f]] 2.
Proof.
  intros [|x i] H; [cbn; split; [reflexivity|lia]|]. unfold take_while1, span_cost. cbn [span].
  destruct (f x) eqn:E;
    [unfold sus, pm in H; cbn [existsb] in H; now rewrite (those_mem _ _ E) in H|].
  cbn. split; [reflexivity|lia].
Qed.
Lemma lin_take_while_m_n m n f : lin (take_while_m_n m n f) [[those f]] 1 2.
Proof.
  intros i. unfold take_while_m_n, span_cost. destruct (span f i) as [[a r]|] eqn:E.
  - pose proof (span_split _ _ _ _ E) as Ei. pose proof (span_all _ _ _ _ E) as Ea.
    assert (Hl : length i = length a + length r) by (rewrite Ei; apply app_length).
    destruct (Nat.leb m (length a)); [|lia]. destruct (Nat.leb (length a) n) eqn:En.
    + rewrite skipn_length. split; [lia|]. split; [lia|]. intros _. lia.
    + apply Nat.leb_gt in En. rewrite skipn_length. split; [lia|]. split; [lia|]. intros HS.
      rewrite Ei, skipn_app in HS. destruct (skipn n a) as [|x s] eqn:Es.
      * apply (f_equal (@length byte)) in Es. rewrite skipn_length in Es. cbn in Es. lia.
      * assert (Hx : f x = true).
        { rewrite forallb_forall in Ea. apply Ea. rewrite <- (firstn_skipn n a), Es.
          apply in_or_app. right. now left. }
        cbn [app] in HS; unfold sus, pm in HS; cbn [existsb] in HS; now rewrite (those_mem _ _ Hx) in HS.
  - pose proof (span_none _ _ E) as Ea. destruct (Nat.leb n (length i)) eqn:En; [|lia].
    apply Nat.leb_le in En. rewrite skipn_length. split; [lia|]. split; [lia|]. intros HS.
    destruct (skipn n i) as [|x s] eqn:Es.
    + apply (f_equal (@length byte)) in Es. rewrite skipn_length in Es. cbn in Es. lia.
    + assert (Hx : f x = true).
      { rewrite forallb_forall in Ea. apply Ea. rewrite <- (firstn_skipn n i), Es.
        apply in_or_app. right. now left. }
      cbn [app] in HS; unfold sus, pm in HS; cbn [existsb] in HS; now rewrite (those_mem _ _ Hx) in HS.
Qed.
Lemma grd_take_while_m_n m n f : 1 <= m -> m <= n ->
  grd (take_while_m_n m n f) [[those f]] 2.
Proof.
  intros Hm Hn [|x i] H.
  - unfold take_while_m_n, span_cost. cbn [span length]. destruct n; [lia|]. cbn. split; [reflexivity|lia].
  - unfold take_while_m_n, span_cost. cbn [span].
    destruct (f x) eqn:E;
    [unfold sus, pm in H; cbn [existsb] in H; now rewrite (those_mem _ _ E) in H|].
    destruct m; [lia|]. cbn. split; [reflexivity|lia].
Qed.
Lemma lin_take n : lin (take n) [] 0 1.
Proof.
  intros i. unfold take. destruct (N.leb n (lenN i)); [|lia]. rewrite skipn_length. lia.
Qed.
Lemma find2_split c1 c2 i a r : find2 c1 c2 i = Some (a, r) -> i = a ++ r.
Proof.
  revert a r; induction i as [|x i IH]; intros a r H; [discriminate|]. cbn [find2] in H.
  destruct i as [|y i]; [discriminate|].
  destruct (beq x c1 && beq y c2)%bool; [injection H as <- <-; reflexivity|].
  destruct (find2 c1 c2 (y :: i)) as [[a' r']|]; [|discriminate]. injection H as <- <-. cbn.
  now rewrite <- (IH _ _ eq_refl).
Qed.
Lemma lin_take_until2 c1 c2 : lin (take_until2 c1 c2) [] 1 2.
Proof.
  intros i. unfold take_until2. destruct (find2 c1 c2 i) as [[a r]|] eqn:E; [|lia].
  apply find2_split in E. subst i. rewrite app_length. lia.
Qed.

(** ** On rests like those that a slow parser may leave *)

(** after such a rest nothing succeeds, or nothing is consumed, in a bounded number of steps *)
Definition dead {A} (q : parser A) (T : list pat) (k : nat) : Prop := forall i,
  sus T i = true -> isok (fst (q i)) = false /\ snd (q i) <= k.
Definition stay {A} (i : bytes) (x : res A) : Prop :=
  match x with ROk r _ => r = i | _ => True end.
Definition idle {A} (q : parser A) (T : list pat) (k : nat) : Prop := forall i,
  sus T i = true -> snd (q i) <= k /\ stay i (fst (q i)).
(** on an input like [T] success leaves a rest like [S] *)
Definition after {A} (q : parser A) (T S : list pat) : Prop := forall i r x c,
  sus T i = true -> q i = (ROk r x, c) -> sus S r = true.
Definition leaf {A} (q : parser A) : Prop := forall i, snd (q i) <= 1 /\ stay i (fst (q i)).

Lemma dead_nil {A} (q : parser A) : dead q [] 0.
Proof. intros i H. discriminate. Qed.
Lemma idle_nil {A} (q : parser A) : idle q [] 0.
Proof. intros i H. discriminate. Qed.
Lemma dead_grd {A} (q : parser A) T G b : grd q G b -> disj T G = true -> dead q T b.
Proof. intros H D i Hi. apply H. now apply (disj_sus T). Qed.
Lemma idle_dead {A} (q : parser A) T k : dead q T k -> idle q T k.
Proof.
  intros H i Hi. destruct (H i Hi) as [X Y]. destruct (q i) as [[r x| | | |] c]; cbn in *;
    [discriminate|auto..].
Qed.
Lemma idle_grd {A} (q : parser A) T G b : grd q G b -> disj T G = true -> idle q T b.
Proof. intros H D. now apply idle_dead, dead_grd with (G := G). Qed.
Lemma lin_leaf {A} (q : parser A) : leaf q -> lin q [] 0 1.
Proof.
  intros H i. destruct (H i) as [X Y]. destruct (q i) as [[r x| | | |] c]; cbn in *; [|lia..].
  subst r. lia.
Qed.
Lemma idle_leaf {A} (q : parser A) T : leaf q -> idle q T 1.
Proof. intros H i _. apply H. Qed.

Section Idle.
Context {A B : Type}.
Lemma dead_bind1 (p : parser A) (f : A -> parser B) T k : dead p T k -> dead (bind p f) T (k + 1).
Proof.
  intros H i Hi. destruct (H i Hi) as [X Y]. unfold bind.
  destruct (p i) as [[r x| | | |] c]; cbn in *; [discriminate|split; [reflexivity|lia]..].
Qed.
Lemma dead_bind2 (p : parser A) (f : A -> parser B) T k k' :
  idle p T k -> (forall x, dead (f x) T k') -> dead (bind p f) T (k + k' + 1).
Proof.
  intros H K i Hi. destruct (H i Hi) as [X Y]. unfold bind.
  destruct (p i) as [[r x| | | |] c]; cbn in X, Y; [|cbn; split; [reflexivity|lia]..].
  subst r. destruct (K x i Hi) as [X' Y']. destruct (f x i) as [y d]; cbn in *.
  split; [exact X'|lia].
Qed.
Lemma idle_bind (p : parser A) (f : A -> parser B) T k k' :
  idle p T k -> (forall x, idle (f x) T k') -> idle (bind p f) T (k + k' + 1).
Proof.
  intros H K i Hi. destruct (H i Hi) as [X Y]. unfold bind.
  destruct (p i) as [[r x| | | |] c]; cbn in X, Y; [|cbn; split; [lia|exact I]..].
  subst r. destruct (K x i Hi) as [X' Y']. destruct (f x i) as [y d]; cbn in *.
  split; [lia|exact Y'].
Qed.
Lemma idle_opt (p : parser A) T k : dead p T k -> idle (opt p) T (k + 1).
Proof.
  intros H i Hi. destruct (H i Hi) as [X Y]. unfold opt.
  destruct (p i) as [[r x| | | |] c]; cbn in *; [discriminate|split; [lia|auto]..].
Qed.
Lemma idle_many0 (p : parser A) T k : dead p T k -> idle (many0 p) T (k + 1).
Proof.
  intros H i Hi. destruct (H i Hi) as [X Y]. unfold many0. cbn [many0_f].
  destruct (p i) as [[r x| | | |] c]; cbn in *; [discriminate|split; [lia|auto]..].
Qed.
Lemma idle_conv (p : parser A) (f : A -> bytes -> res B) T k :
  keeps f -> idle p T k -> idle (conv p f) T (k + 1).
Proof.
  intros Hf H i Hi. destruct (H i Hi) as [X Y]. unfold conv.
  destruct (p i) as [[r x| | | |] c]; cbn in X, Y; [|cbn; split; [lia|exact I]..].
  subst r. specialize (Hf x i). cbn. split; [lia|]. destruct (f x i); cbn; auto.
Qed.
Lemma idle_pmap (f : A -> B) p T k : idle p T k -> idle (pmap f p) T (k + 1).
Proof. apply idle_conv. intros x r. reflexivity. Qed.
Lemma idle_map_res (f : A -> option B) p T k : idle p T k -> idle (map_res p f) T (k + 1).
Proof. apply idle_conv. intros x r. destruct (f x); [reflexivity|exact I]. Qed.
Lemma idle_expect (f : A -> option B) p T k : idle p T k -> idle (expect p f) T (k + 1).
Proof. apply idle_conv. intros x r. destruct (f x); [reflexivity|exact I]. Qed.
Lemma dead_conv (p : parser A) (f : A -> bytes -> res B) T k : dead p T k -> dead (conv p f) T (k + 1).
Proof.
  intros H i Hi. destruct (H i Hi) as [X Y]. unfold conv.
  destruct (p i) as [[r x| | | |] c]; cbn in *; [discriminate|split; [reflexivity|lia]..].
Qed.
Lemma dead_pmap (f : A -> B) p T k : dead p T k -> dead (pmap f p) T (k + 1).
Proof. apply dead_conv. Qed.
Lemma idle_if (t : bool) (p q : parser A) T k k' :
  idle p T k -> idle q T k' -> idle (if t then p else q) T (k + k').
Proof.
  intros H K i Hi. destruct t; [destruct (H i Hi)|destruct (K i Hi)]; (split; [lia|assumption]).
Qed.
Lemma dead_if (t : bool) (p q : parser A) T k k' :
  dead p T k -> dead q T k' -> dead (if t then p else q) T (k + k').
Proof.
  intros H K i Hi. destruct t; [destruct (H i Hi)|destruct (K i Hi)]; (split; [assumption|lia]).
Qed.
Lemma lin_if (t : bool) (p q : parser A) S1 S2 a1 a2 b1 b2 :
  lin p S1 a1 b1 -> lin q S2 a2 b2 ->
  lin (if t then p else q) (S1 ++ S2) (Nat.max a1 a2) (b1 + b2).
Proof.
  intros H K. assert (X : forall i, sus (S1 ++ S2) i = false -> sus S1 i = false /\ sus S2 i = false)
    by (intros i; rewrite sus_app; apply orb_false_iff).
  destruct t.
  - apply (lin_ab _ _ _ _ (Nat.max a1 a2) (b1 + b2)) in H; [|lia..]. intros i. specialize (H i).
    destruct (p i) as [[r x| | | |] c]; auto. destruct H as (H1 & H2 & H3). repeat split; auto.
    intros HS. apply H3. now apply X.
  - apply (lin_ab _ _ _ _ (Nat.max a1 a2) (b1 + b2)) in K; [|lia..]. intros i. specialize (K i).
    destruct (q i) as [[r x| | | |] c]; auto. destruct K as (H1 & H2 & H3). repeat split; auto.
    intros HS. apply H3. now apply X.
Qed.
Lemma grd_if (t : bool) (p q : parser A) G1 G2 b1 b2 :
  grd p G1 b1 -> grd q G2 b2 -> grd (if t then p else q) (G1 ++ G2) (b1 + b2).
Proof.
  intros H K i Hi. rewrite sus_app in Hi. apply orb_false_iff in Hi as [X Y].
  destruct t; [destruct (H i X)|destruct (K i Y)]; (split; [assumption|lia]).
Qed.
(** [f] runs on what [p] left: nothing more succeeds after a slow [p] *)
Lemma lin_bind_dead (p : parser A) (f : A -> parser B) S1 S2 a1 a2 b1 b2 k :
  lin p S1 a1 b1 -> (forall x, dead (f x) S1 k) -> (forall x, lin (f x) S2 a2 b2) ->
  lin (bind p f) S2 (Nat.max a1 a2) (b1 + b2 + k + 1).
Proof.
  intros H Hd K. apply (lin_ab _ _ _ _ (Nat.max a1 a2) b1) in H; [|lia..].
  assert (K' : forall x, lin (f x) S2 (Nat.max a1 a2) b2)
    by (intros x; apply (lin_ab _ _ a2 b2); [apply K|lia..]).
  generalize (Nat.max a1 a2), H, K'. clear H K K'. intros a H K i. unfold bind. specialize (H i).
  destruct (p i) as [[r x| | | |] c]; try lia.
  destruct H as (H1 & H2 & H3). specialize (K x r). specialize (Hd x r).
  destruct (sus S1 r) eqn:E.
  - destruct (Hd eq_refl) as [X Y].
    destruct (f x r) as [[r' y| | | |] d]; cbn in X, Y; [discriminate|lia..].
  - specialize (H3 eq_refl). destruct (f x r) as [[r' y| | | |] d]; [|lia..].
    destruct K as (K1 & K2 & K3). split; [lia|]. split; [lia|]. intros HS. specialize (K3 HS). lia.
Qed.
(** or nothing more is consumed *)
Lemma lin_bind_idle (p : parser A) (f : A -> parser B) S1 S2 a1 a2 b1 b2 k :
  lin p S1 a1 b1 -> (forall x, idle (f x) S1 k) -> (forall x, lin (f x) S2 a2 b2) ->
  lin (bind p f) (S1 ++ S2) (Nat.max a1 a2) (b1 + b2 + k + 1).
Proof.
  intros H Hd K. apply (lin_ab _ _ _ _ (Nat.max a1 a2) b1) in H; [|lia..].
  assert (K' : forall x, lin (f x) S2 (Nat.max a1 a2) b2)
    by (intros x; apply (lin_ab _ _ a2 b2); [apply K|lia..]).
  generalize (Nat.max a1 a2), H, K'. clear H K K'. intros a H K i. unfold bind. specialize (H i).
  destruct (p i) as [[r x| | | |] c]; try lia.
  destruct H as (H1 & H2 & H3). specialize (K x r). specialize (Hd x r).
  destruct (sus S1 r) eqn:E.
  - destruct (Hd eq_refl) as [X Y].
    destruct (f x r) as [[r' y| | | |] d]; cbn in X, Y; [subst r'|lia..].
    split; [lia|]. split; [lia|]. rewrite sus_app, E. discriminate.
  - specialize (H3 eq_refl). destruct (f x r) as [[r' y| | | |] d]; [|lia..].
    destruct K as (K1 & K2 & K3). split; [lia|]. split; [lia|]. rewrite sus_app. intros HS.
    apply orb_false_iff in HS as [_ HS]. specialize (K3 HS). lia.
Qed.
Lemma lin_opt_ff (p : parser A) S a b bf : lin p S a b -> ff p bf -> lin (opt p) S a (b + bf + 1).
Proof.
  intros H Hf i. unfold opt. specialize (H i). specialize (Hf i).
  destruct (p i) as [[r x| | | |] c]; try lia.
  - destruct H as (H1 & H2 & H3). split; [exact H1|]. split; [lia|].
    intros HS. specialize (H3 HS). lia.
  - specialize (Hf eq_refl). cbn in Hf. split; [lia|]. split; [lia|]. intros _. lia.
Qed.
Lemma ff_pmap (f : A -> B) p b : ff p b -> ff (pmap f p) (b + 1).
Proof.
  intros H i. specialize (H i). unfold pmap, conv. destruct (p i) as [[r x| | | |] c]; cbn in *;
    try discriminate. intros _. specialize (H eq_refl). lia.
Qed.
Lemma ff_value (y : B) (p : parser A) b : ff p b -> ff (value y p) (b + 1).
Proof.
  intros H i. specialize (H i). unfold value, bind. destruct (p i) as [[r x| | | |] c]; cbn in *;
    try discriminate. intros _. specialize (H eq_refl). lia.
Qed.
Lemma ff_gate t (p : parser A) b : ff p b -> ff (gate t p) (b + 1).
Proof.
  intros H i. specialize (H i). destruct t; cbn; [intros X; specialize (H X); lia|lia].
Qed.
Lemma ff_orp (p q : parser A) b b' : ff p b -> ff q b' -> ff (orp p q) (b + b' + 1).
Proof.
  intros H K i. specialize (H i). specialize (K i). unfold orp.
  destruct (p i) as [[r x| | | |] c]; cbn in *; try discriminate. specialize (H eq_refl).
  destruct (q i) as [[r x| | | |] d]; cbn in *; try discriminate. intros _.
  specialize (K eq_refl). lia.
Qed.
End Idle.
Lemma ff_kw t : ff (tag_no_case t) (length t + 1).
Proof. intros i _. pose proof (lin_kw t i). destruct (tag_no_case t i) as [[r x| | | |] c]; cbn; lia. Qed.
Lemma ff_tag t : ff (tag t) (length t + 1).
Proof. intros i _. pose proof (lin_tag t i). destruct (tag t i) as [[r x| | | |] c]; cbn; lia. Qed.
Lemma ff_sat f : ff (sat f) 1.
Proof. intros [|x i]; cbn; [lia|]. destruct (f x); cbn; lia. Qed.
Lemma idle_vecn {A} n (p : parser (list A)) T k : idle p T k -> idle (vecn n p) T (k + 1 + 1).
Proof.
  intros H. apply idle_bind; [exact H|]. intros l i _. destruct (Nat.leb n (length l)); cbn; auto.
Qed.
Lemma grd_char_bind {A} c (f : byte -> parser A) G b :
  (forall u, grd (f u) G b) -> grd (bind (char c) f) (map (cons [c]) G) (b + 2).
Proof.
  intros H [|x i] Hi; [cbn; split; [reflexivity|lia]|]. unfold bind. cbn [char sat].
  destruct (beq x c) eqn:E; [|cbn; split; [reflexivity|lia]].
  assert (N : sus G i = false).
  { destruct (sus G i) eqn:X; [|reflexivity]. unfold sus in *.
    apply existsb_exists in X as (q & Hq & Eq).
    assert (Y : existsb (fun p => pm p (x :: i)) (map (cons [c]) G) = true).
    { apply existsb_exists. exists ([c] :: q). split; [now apply in_map|]. cbn. now rewrite E. }
    congruence. }
  destruct (H x i N) as [X Y]. destruct (f x i) as [y d]; cbn in *. split; [exact X|lia].
Qed.

(** ** What is left after a slow first alternative *)
Lemma after_disj {A} (q : parser A) T G b : grd q G b -> disj T G = true -> after q T [].
Proof.
  intros H D i r x c Hi Hq. destruct (H i (disj_sus _ _ _ D Hi)) as [X _]. now rewrite Hq in X.
Qed.
Lemma after_orp {A} (p q : parser A) T S1 S2 :
  after p T S1 -> after q T S2 -> after (orp p q) T (S1 ++ S2).
Proof.
  intros H K i r x c Hi. unfold orp. specialize (H i). specialize (K i).
  destruct (p i) as [[r' x'| | | |] d]; try discriminate.
  - intros E. injection E as -> -> _. rewrite sus_app. now rewrite (H _ _ _ Hi eq_refl).
  - destruct (q i) as [[r' x'| | | |] e]; intros E; try discriminate.
    injection E as -> -> _. rewrite sus_app, (K _ _ _ Hi eq_refl). apply orb_true_r.
Qed.
Lemma after_gate {A} t (q : parser A) T S : after q T S -> after (gate t q) T S.
Proof. intros H. destruct t; [exact H|]. intros i r x c _ E. discriminate. Qed.
Definition tails (t : bytes) (T : list pat) : list pat :=
  map (skipn (length t)) (filter (fun p => negb (clash p (pat_ci t))) T).
Lemma pm_skipn n : forall p i, pm p i = true -> pm (skipn n p) (skipn n i) = true.
Proof.
  induction n as [|n IH]; intros [|s p] [|x i] H; try discriminate; auto.
  cbn in *. apply andb_true_iff in H as [_ H]. now apply IH.
Qed.
Lemma after_value_kw {A} (v : A) t T : after (value v (tag_no_case t)) T (tails t T).
Proof.
  intros i r x c Hi H. unfold value, bind in H.
  destruct (tag_no_case t i) as [[r' u| | | |] d] eqn:K; try discriminate.
  cbn in H. injection H as -> _ _. destruct (kw_rest _ _ _ _ _ K) as [-> P].
  unfold sus in *. apply existsb_exists in Hi as (p & Hp & E). apply existsb_exists.
  exists (skipn (length t) p). split; [|now apply pm_skipn].
  unfold tails. apply in_map, filter_In. split; [exact Hp|].
  destruct (clash p (pat_ci t)) eqn:C; [|reflexivity]. now rewrite (clash_pm _ _ _ C E) in P.
Qed.
Lemma lin_orp_after {A} (p q : parser A) S1 S2 S Gp a1 a2 b1 b2 bg :
  lin p S1 a1 b1 -> grd p Gp bg -> lin q S2 a2 b2 -> after q Gp S ->
  lin (orp p q) (S ++ S1 ++ S2) (a1 + a2) (b1 + b2 + bg + 1).
Proof. intros. now apply lin_orp_sus with (Gp := Gp). Qed.

(** the second alternative reads again what the first has read *)
Lemma lin_orp_redo {A B} (p : parser A) (f : A -> parser B) (g : A -> B) S1 S2 G a1 a2 b1 b2 bg :
  lin p S1 a1 b1 -> (forall x, lin (f x) S2 a2 b2) -> (forall x, grd (f x) G bg) ->
  disj S1 G = true ->
  lin (orp (bind p f) (pmap g p)) (S1 ++ S2 ++ G) (a1 + a1 + a2 + 1) (b1 + b1 + b2 + bg + 4).
Proof.
  intros H K Hg D i. unfold orp, pmap, conv, bind. specialize (H i).
  destruct (p i) as [[r x| | | |] c]; try nia.
  destruct H as (H1 & H2 & H3). specialize (K x r). specialize (Hg x r).
  destruct (f x r) as [[r' y| | | |] d]; try nia.
  - destruct K as (K1 & K2 & K3). split; [lia|]. split; [nia|]. intros HS.
    rewrite !sus_app in HS. apply orb_false_iff in HS as [HS1 HS]. apply orb_false_iff in HS as [HS2 _].
    specialize (K3 HS2). destruct (sus S1 r) eqn:E.
    + destruct (Hg (disj_sus _ _ _ D E)) as [X _]. discriminate.
    + specialize (H3 eq_refl). nia.
  - split; [lia|]. split; [nia|]. intros HS.
    rewrite !sus_app in HS. apply orb_false_iff in HS as [HS1 HS]. apply orb_false_iff in HS as [_ HS].
    specialize (H3 HS1). destruct (Hg HS) as [_ Y]; cbn in Y. nia.
Qed.

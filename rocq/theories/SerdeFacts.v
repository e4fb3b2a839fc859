(** Facts about the serde combinators of Serde.v. *)

From Verif Require Import Bytes BytesFacts Utf8 Types Valid Serde.
From Coq Require Import Lia.
Open Scope nat_scope.

(** ** Reading what was written *)

Definition rt {A} (d : tree -> option A) (s : A -> tree) (P : A -> bool) : Prop :=
  forall a, P a = true -> d (s a) = Some a.
Definition never_null {A} (s : A -> tree) : Prop := forall a, s a <> TNull.

Lemma de_all_map A (d : tree -> option A) s l :
  (forall a, In a l -> d (s a) = Some a) -> de_all d (map s l) = Some l.
Proof.
  induction l as [|a l IH]; intros H; [reflexivity|]. cbn. rewrite (H a (or_introl eq_refl)).
  rewrite IH; [reflexivity|]. intros b Hb. apply H. now right.
Qed.
Lemma rt_vec A (d : tree -> option A) s P : rt d s P -> rt (de_vec d) (ser_vec s) (forallb P).
Proof.
  intros H l Hl. apply de_all_map. intros a Ha. apply H.
  rewrite forallb_forall in Hl. now apply Hl.
Qed.
Lemma rt_vec1 A (d : tree -> option A) s P : rt d s P -> rt (de_vec_n 1 d) (ser_vec s) (v1 P).
Proof.
  intros H l Hl. apply andb_prop in Hl as [Hn Hl]. unfold de_vec_n.
  rewrite (rt_vec _ _ _ _ H l Hl). now destruct l.
Qed.
Lemma rt_vec2 A (d : tree -> option A) s P : rt d s P -> rt (de_vec_n 2 d) (ser_vec s) (v2 P).
Proof.
  intros H l Hl. apply andb_prop in Hl as [Hn Hl]. unfold de_vec_n.
  rewrite (rt_vec _ _ _ _ H l Hl). now destruct l as [|x [|y l]].
Qed.
Lemma rt_opt A (d : tree -> option A) s P : never_null s -> rt d s P ->
  rt (de_opt d) (ser_opt s) (vopt P).
Proof.
  intros Hn H [a|] Ha; [|reflexivity]. cbn in *. unfold de_opt.
  pose proof (Hn a). rewrite (H a Ha). now destruct (s a).
Qed.
Lemma rt_pair A B (d : tree -> option A) s P (e : tree -> option B) r Q :
  rt d s P -> rt e r Q -> rt (de_pair d e) (ser_pair s r) (vpair P Q).
Proof.
  intros H K [a b] Hab. apply andb_prop in Hab as [Ha Hb]. cbn in *.
  now rewrite (H a Ha), (K b Hb).
Qed.
Lemma rt_weaken A (d : tree -> option A) s (P Q : A -> bool) :
  rt d s Q -> (forall a, P a = true -> Q a = true) -> rt d s P.
Proof. intros H K a Ha. apply H, K, Ha. Qed.

Lemma null_vec A (s : A -> tree) : never_null (ser_vec s).
Proof. intros a. discriminate. Qed.
Lemma null_pair A B (s : A -> tree) (r : B -> tree) : never_null (ser_pair s r).
Proof. intros a. discriminate. Qed.
Lemma null_num : never_null ser_num.
Proof. intros a. discriminate. Qed.
Lemma null_string : never_null ser_string.
Proof. intros a. discriminate. Qed.
Lemma null_char : never_null ser_char.
Proof. intros a. discriminate. Qed.

Lemma rt_str ok P : (forall s, P s = true -> ok s = true /\ utf8_ok s = true) ->
  rt (de_str ok) ser_string P.
Proof.
  intros H s Hs. destruct (H s Hs) as [H1 H2]. unfold de_str, ser_string, de_string.
  now rewrite H2, H1.
Qed.
Lemma rt_string : rt de_string ser_string utf8_ok.
Proof. intros s H. cbn. now rewrite H. Qed.
Lemma rt_char ok : rt (de_char ok) ser_char ok.
Proof. intros b H. cbn. now rewrite H. Qed.
Lemma rt_bool : rt de_bool ser_bool (fun _ => true).
Proof. intros b _. reflexivity. Qed.
Lemma rt_num max : rt (de_num max) ser_num (fun n => N.leb n max).
Proof. intros n H. cbn. now rewrite H. Qed.
Lemma rt_nonzero max :
  rt (de_nonzero max) ser_num (fun n => negb (N.eqb n 0) && N.leb n max).
Proof.
  intros n H. apply andb_prop in H as [H1 H2]. unfold de_nonzero. rewrite rt_num by assumption.
  now destruct (N.eqb n 0).
Qed.
Lemma rt_u8 : rt de_u8 ser_u8 (fun _ => true).
Proof. intros b _. unfold de_u8, ser_u8, bN. apply Byte.of_to_N. Qed.

(** Structs *)
Fixpoint distinct (l : list bytes) : bool :=
  match l with [] => true | k :: l' => negb (existsb (beqs k) l') && distinct l' end.

Lemma entries_other k names vals : existsb (beqs k) names = false ->
  entries k (combine names vals) = [].
Proof.
  revert vals. induction names as [|n names IH]; intros [|v vals] H; try reflexivity.
  cbn in H. apply Bool.orb_false_elim in H as [H1 H2]. unfold entries in *. cbn. rewrite H1.
  now apply IH.
Qed.
Lemma entries_cons k n v l : beqs k n = false -> entries k ((n, v) :: l) = entries k l.
Proof. intros H. unfold entries. cbn. now rewrite H. Qed.
Lemma entries_here k v l : entries k ((k, v) :: l) = v :: entries k l.
Proof. unfold entries. cbn. now rewrite beqs_refl. Qed.
Lemma find_skip n v l names : existsb (beqs n) names = false ->
  find_fields names ((n, v) :: l) = find_fields names l.
Proof.
  induction names as [|k names IH]; intros H; [reflexivity|]. cbn in H.
  apply Bool.orb_false_elim in H as [H1 H2]. cbn [find_fields]. rewrite IH by assumption.
  rewrite entries_cons; [reflexivity|]. destruct (beqs k n) eqn:E; [|reflexivity].
  apply beqs_eq in E. subst. now rewrite beqs_refl in H1.
Qed.
Lemma find_combine names vals : distinct names = true -> length names = length vals ->
  find_fields names (combine names vals) = Some (map Some vals).
Proof.
  revert vals. induction names as [|n names IH]; intros [|v vals] H L; try discriminate L;
    [reflexivity|].
  cbn in H. apply andb_prop in H as [H1 H2]. apply Bool.negb_true_iff in H1.
  cbn [combine find_fields map]. rewrite find_skip by assumption.
  rewrite IH by (assumption || now injection L). rewrite entries_here.
  now rewrite entries_other.
Qed.
Lemma de_ser_struct A names vals (k : slots -> option A) : distinct names = true ->
  length names = length vals ->
  de_struct names k (ser_struct names vals) = k (map Some vals).
Proof. intros H L. unfold de_struct, ser_struct. now rewrite find_combine. Qed.
Lemma req_some A B (d : tree -> option A) (k : A -> slots -> option B) t s a :
  d t = Some a -> req d k (Some t :: s) = k a s.
Proof. intros H. cbn. now rewrite H. Qed.
Lemma opt_some A B (d : tree -> option A) (k : option A -> slots -> option B) t s a :
  de_opt d t = Some a -> opt d k (Some t :: s) = k a s.
Proof. intros H. cbn. now rewrite H. Qed.

(** Enums *)
Lemma de_ser_unit A (l : list (variant A)) name : de_enum l (ser_unit name) = pick name None l.
Proof. reflexivity. Qed.
Lemma de_ser_variant A (l : list (variant A)) name c :
  de_enum l (ser_variant name c) = pick name (Some c) l.
Proof. reflexivity. Qed.

(** ** What can be read *)

Definition good {A} (d : tree -> option A) (P : A -> bool) : Prop :=
  forall t a, d t = Some a -> P a = true.
Definition good_content {A} (d : option tree -> option A) (P : A -> bool) : Prop :=
  forall c a, d c = Some a -> P a = true.
Definition good_fields {A} (k : slots -> option A) (P : A -> bool) : Prop :=
  forall s a, k s = Some a -> P a = true.

Lemma good_weaken A (d : tree -> option A) (P Q : A -> bool) :
  good d Q -> (forall a, Q a = true -> P a = true) -> good d P.
Proof. intros H K t a E. eapply K, H, E. Qed.
Lemma good_all A (d : tree -> option A) P : good d P ->
  forall l r, de_all d l = Some r -> forallb P r = true.
Proof.
  intros H. induction l as [|t l IH]; intros r E; cbn in E; [now injection E as <-|].
  destruct (d t) eqn:E1; [|discriminate]. destruct (de_all d l) eqn:E2; [|discriminate].
  injection E as <-. cbn. rewrite (H _ _ E1). now apply IH.
Qed.
Lemma good_vec A (d : tree -> option A) P : good d P -> good (de_vec d) (forallb P).
Proof. intros H [] a E; try discriminate. eapply good_all; eassumption. Qed.
Lemma good_vec1 A (d : tree -> option A) P : good d P -> good (de_vec_n 1 d) (v1 P).
Proof.
  intros H t l E. unfold de_vec_n in E. destruct (de_vec d t) eqn:E1; [|discriminate].
  pose proof (good_vec _ _ _ H _ _ E1). destruct l0; [discriminate|]. injection E as <-.
  unfold v1. now rewrite H0.
Qed.
Lemma good_vec2 A (d : tree -> option A) P : good d P -> good (de_vec_n 2 d) (v2 P).
Proof.
  intros H t l E. unfold de_vec_n in E. destruct (de_vec d t) eqn:E1; [|discriminate].
  pose proof (good_vec _ _ _ H _ _ E1). destruct l0 as [|x [|y l0]]; try discriminate.
  injection E as <-. unfold v2. now rewrite H0.
Qed.
Lemma good_opt A (d : tree -> option A) P : good d P -> good (de_opt d) (vopt P).
Proof.
  intros H t o E. unfold de_opt in E.
  assert (K : match d t with Some a => Some (Some a) | None => None end = Some o \/ o = None).
  { destruct t; auto. injection E as <-. auto. }
  destruct K as [K | ->]; [|reflexivity]. destruct (d t) eqn:E1; [|discriminate].
  injection K as <-. eapply H. eassumption.
Qed.
Lemma good_pair A B (d : tree -> option A) P (e : tree -> option B) Q :
  good d P -> good e Q -> good (de_pair d e) (vpair P Q).
Proof.
  intros H K t p E. destruct t; try discriminate. destruct p as [a b]. destruct l as [|x [|y [|]]]; try discriminate.
  cbn in E. destruct (d x) eqn:E1; [|discriminate]. destruct (e y) eqn:E2; [|discriminate].
  injection E as <- <-. unfold vpair. cbn. now rewrite (H _ _ E1), (K _ _ E2).
Qed.
Lemma good_string : good de_string utf8_ok.
Proof. intros [] a E; try discriminate. cbn in E. destruct (utf8_ok s) eqn:E1; congruence. Qed.
Lemma good_str ok : good (de_str ok) ok.
Proof.
  intros t a E. unfold de_str in E. destruct (de_string t); [|discriminate].
  destruct (ok b) eqn:E1; congruence.
Qed.
Lemma good_char ok : good (de_char ok) ok.
Proof.
  intros [] a E; try discriminate. destruct s as [|b [|]]; try discriminate. cbn in E.
  destruct (ok b) eqn:E1; congruence.
Qed.
Lemma good_num max : good (de_num max) (fun n => N.leb n max).
Proof. intros [] a E; try discriminate. cbn in E. destruct (N.leb n max) eqn:E1; congruence. Qed.
Lemma good_nonzero max :
  good (de_nonzero max) (fun n => negb (N.eqb n 0) && N.leb n max).
Proof.
  intros t a E. unfold de_nonzero in E. destruct (de_num max t) eqn:E1; [|discriminate].
  apply good_num in E1. destruct (N.eqb n 0) eqn:E2; [discriminate|]. injection E as <-.
  now rewrite E2, E1.
Qed.
Lemma good_any A (d : tree -> option A) : good d (fun _ => true).
Proof. intros t a _. reflexivity. Qed.

Lemma good_struct A names (k : slots -> option A) P : good_fields k P ->
  good (de_struct names k) P.
Proof.
  intros H t a E. destruct t; try discriminate; cbn in E.
  - destruct (Nat.eqb (length l) (length names)); [|discriminate]. eapply H. eassumption.
  - destruct (find_fields names l); [|discriminate]. eapply H. eassumption.
Qed.
Lemma good_req A B (d : tree -> option A) (k : A -> slots -> option B) P Q :
  good d Q -> (forall a, Q a = true -> good_fields (k a) P) -> good_fields (req d k) P.
Proof.
  intros H K [|[t|] s] b E; try discriminate. cbn in E. destruct (d t) eqn:E1; [|discriminate].
  eapply K; [|eassumption]. eapply H. eassumption.
Qed.
Lemma good_opt_field A B (d : tree -> option A) (k : option A -> slots -> option B) P Q :
  good d Q -> (forall a, vopt Q a = true -> good_fields (k a) P) -> good_fields (opt d k) P.
Proof.
  intros H K [|[t|] s] b E; try discriminate; cbn in E.
  - destruct (de_opt d t) eqn:E1; [|discriminate].
    eapply K; [|eassumption]. eapply good_opt; eassumption.
  - eapply K; [|eassumption]. reflexivity.
Qed.
Lemma good_only A B on (absent : A) f (k : A -> slots -> option B) P :
  (on = true -> good_fields (f k) P) -> (on = false -> good_fields (k absent) P) ->
  good_fields (only on absent f k) P.
Proof. intros H K s b E. unfold only in E. destruct on; [eapply H | eapply K]; try eassumption; reflexivity. Qed.
Lemma good_fin A (a : A) P : P a = true -> good_fields (fin a) P.
Proof. intros H [] b E; [|discriminate]. now injection E as <-. Qed.

Lemma good_enum A (l : list (variant A)) P :
  Forall (fun v => snd (fst v) = true -> good_content (snd v) P) l -> good (de_enum l) P.
Proof.
  intros H. assert (K : forall name c a, pick name c l = Some a -> P a = true).
  { intros name c a. induction H as [|[[n on] d] l H1 H2 IH]; cbn; [discriminate|].
    destruct (beqs n name); [|assumption]. destruct on; [|discriminate]. apply H1. reflexivity. }
  intros [] a E; try discriminate; cbn [de_enum] in E.
  - destruct l0 as [|[] [|c [|]]]; try discriminate. eapply K. eassumption.
  - destruct (entries key_type l0) as [|[] [|]]; try discriminate;
      destruct (entries key_content l0) as [|c [|]]; try discriminate; eapply K; eassumption.
Qed.
Lemma good_unit A (a : A) P : P a = true -> good_content (c_unit a) P.
Proof. intros H c r E. destruct c as [[]|]; try discriminate; now injection E as <-. Qed.
Lemma good_newtype A B (d : tree -> option A) (f : A -> B) P Q :
  good d Q -> (forall a, Q a = true -> P (f a) = true) -> good_content (c_newtype d f) P.
Proof.
  intros H K [t|] b E; [|discriminate]. cbn in E. destruct (d t) eqn:E1; [|discriminate].
  injection E as <-. eapply K, H, E1.
Qed.
Lemma good_newopt A B (d : tree -> option A) (f : option A -> B) P Q :
  good d Q -> (forall a, vopt Q a = true -> P (f a) = true) -> good_content (c_newopt d f) P.
Proof.
  intros H K [t|] b E; cbn in E.
  - destruct (de_opt d t) eqn:E1; [|discriminate]. injection E as <-.
    eapply K, good_opt; eassumption.
  - injection E as <-. now apply K.
Qed.
Lemma good_c_pair A B C (d : tree -> option A) (e : tree -> option B) (f : A -> B -> C) P Q R :
  good d Q -> good e R -> (forall a b, Q a = true -> R b = true -> P (f a b) = true) ->
  good_content (c_pair d e f) P.
Proof.
  intros H K L [t|] b E; [|discriminate]. cbn in E. destruct (de_pair d e t) eqn:E1; [|discriminate].
  injection E as <-. apply (good_pair _ _ _ _ _ _ H K) in E1. apply andb_prop in E1 as [].
  now apply L.
Qed.
Lemma good_c_struct A names (k : slots -> option A) P : good_fields k P ->
  good_content (c_struct names k) P.
Proof. intros H [t|] b E; [|discriminate]. eapply good_struct; eassumption. Qed.

Lemma good_names A (l : list (bytes * bool * A)) P :
  Forall (fun v => snd (fst v) = true -> P (snd v) = true) l -> good (de_names l) P.
Proof.
  intros H. unfold de_names.
  assert (K : forall name a,
    match filter (fun v => beqs name (fst (fst v))) l with
    | (_, on, a) :: _ => if on then Some a else None
    | [] => None
    end = Some a -> P a = true).
  { intros name a. induction H as [|[[n on] d] l H1 H2 IH]; cbn; [discriminate|].
    destruct (beqs name n); [|assumption]. destruct on; [|discriminate].
    intros E. injection E as <-. now apply H1. }
  intros [] a E; try discriminate.
  - eapply K. eassumption.
  - destruct l0 as [|[n []] [|]]; try discriminate. eapply K. eassumption.
Qed.

(** ** The fuel does not matter once it is the height of the tree *)

Definition agree {A} (h : nat) (d e : tree -> option A) : Prop :=
  forall t, height t < h -> d t = e t.

Lemma height_in t l : In t l -> height t < height (TSeq l).
Proof.
  intros H. cbn. apply Nat.lt_succ_r. apply (in_map height) in H.
  pose proof (list_max_le (map height l) (list_max (map height l))) as [K _].
  specialize (K (Nat.le_refl _)). rewrite Forall_forall in K. now apply K.
Qed.
Lemma height_entry k t l : In (k, t) l -> height t < height (TMap l).
Proof.
  intros H. cbn. apply Nat.lt_succ_r.
  apply (in_map (fun e => height (snd e))) in H. cbn in H.
  pose proof (list_max_le (map (fun e => height (snd e)) l)
    (list_max (map (fun e : bytes * tree => height (snd e)) l))) as [K _].
  specialize (K (Nat.le_refl _)). rewrite Forall_forall in K. now apply K.
Qed.
Lemma height_entries k t l : In t (entries k l) -> height t < height (TMap l).
Proof.
  unfold entries. intros H. apply in_map_iff in H as [[k' t'] [<- H]].
  apply filter_In in H as [H _]. eapply height_entry. eassumption.
Qed.
Lemma height_pos t : 0 < height t.
Proof. destruct t; cbn; lia. Qed.

Lemma agree_refl A h (d : tree -> option A) : agree h d d.
Proof. intros t _. reflexivity. Qed.
Lemma agree_vec A h (d e : tree -> option A) : agree h d e -> agree h (de_vec d) (de_vec e).
Proof.
  intros H [] Ht; try reflexivity. cbn [de_vec].
  assert (K : forall t, In t l -> d t = e t).
  { intros t Hin. apply H. apply height_in in Hin. lia. }
  clear Ht. induction l as [|t l IH]; [reflexivity|]. cbn. rewrite (K t (or_introl eq_refl)).
  rewrite IH; [reflexivity|]. intros u Hu. apply K. now right.
Qed.
Lemma agree_vec_n A h n (d e : tree -> option A) : agree h d e ->
  agree h (de_vec_n n d) (de_vec_n n e).
Proof. intros H t Ht. unfold de_vec_n. now rewrite (agree_vec _ _ _ _ H t Ht). Qed.
Lemma agree_opt A h (d e : tree -> option A) : agree h d e -> agree h (de_opt d) (de_opt e).
Proof. intros H t Ht. unfold de_opt. now rewrite (H t Ht). Qed.

(** Fields and contents of height below [h] *)
Definition low (h : nat) (o : option tree) : Prop :=
  match o with Some t => height t < h | None => True end.
Definition agree_fields {A} (h : nat) (k l : slots -> option A) : Prop :=
  forall s, Forall (low h) s -> k s = l s.
Definition agree_content {A} (h : nat) (k l : option tree -> option A) : Prop :=
  forall c, low h c -> k c = l c.

Lemma agree_req A B h (d e : tree -> option A) (k l : A -> slots -> option B) :
  agree h d e -> (forall a, agree_fields h (k a) (l a)) -> agree_fields h (req d k) (req e l).
Proof.
  intros H K [|[t|] s] Hs; try reflexivity. inversion Hs; subst. cbn. rewrite H by assumption.
  destruct (e t); [|reflexivity]. now apply K.
Qed.
Lemma agree_opt_field A B h (d e : tree -> option A) (k l : option A -> slots -> option B) :
  agree h d e -> (forall a, agree_fields h (k a) (l a)) -> agree_fields h (opt d k) (opt e l).
Proof.
  intros H K [|[t|] s] Hs; try reflexivity; inversion Hs; subst; cbn.
  - rewrite (agree_opt _ _ _ _ H) by assumption.
    destruct (de_opt e t); [|reflexivity]. now apply K.
  - now apply K.
Qed.
Lemma agree_fin A h (a : A) : agree_fields h (fin a) (fin a).
Proof. intros s _. reflexivity. Qed.
Lemma find_low names l s h : find_fields names l = Some s -> height (TMap l) <= h ->
  Forall (low h) s.
Proof.
  intros E Hh. revert s E. induction names as [|n names IH]; intros s E; cbn in E.
  - injection E as <-. constructor.
  - destruct (find_fields names l) as [s'|]; [|discriminate].
    destruct (entries n l) as [|t [|]] eqn:En; try discriminate; injection E as <-;
      constructor; auto; [exact I|].
    assert (H : In t (entries n l)) by (rewrite En; now left).
    apply height_entries in H. cbn [low]. lia.
Qed.
Lemma agree_struct A h names (k l : slots -> option A) : agree_fields h k l ->
  forall t, height t <= h -> de_struct names k t = de_struct names l t.
Proof.
  intros H t Ht. destruct t; try reflexivity; cbn [de_struct].
  - destruct (Nat.eqb (length l0) (length names)); [|reflexivity]. apply H.
    apply Forall_forall. intros o Ho. apply in_map_iff in Ho as [t [<- Hin]].
    apply height_in in Hin. cbn [low]. lia.
  - destruct (find_fields names l0) eqn:E; [|reflexivity]. apply H. eapply find_low; eassumption.
Qed.
Lemma agree_c_newtype A B h (d e : tree -> option A) (f : A -> B) : agree h d e ->
  agree_content h (c_newtype d f) (c_newtype e f).
Proof. intros H [t|] Ht; [|reflexivity]. cbn. now rewrite H. Qed.
Lemma agree_c_pair A B C h (d d' : tree -> option A) (e e' : tree -> option B)
  (f : A -> B -> C) : agree h d d' -> agree h e e' ->
  agree_content h (c_pair d e f) (c_pair d' e' f).
Proof.
  intros H K [t|] Ht; [|reflexivity]. cbn [c_pair low] in *. f_equal.
  destruct t; try reflexivity. destruct l as [|x [|y [|]]]; try reflexivity. cbn [de_pair].
  pose proof (height_in x [x; y] (or_introl eq_refl)).
  pose proof (height_in y [x; y] (or_intror (or_introl eq_refl))).
  rewrite H, K by lia. reflexivity.
Qed.
Lemma agree_c_struct A h names (k l : slots -> option A) : agree_fields h k l ->
  agree_content h (c_struct names k) (c_struct names l).
Proof.
  intros H [t|] Ht; [|reflexivity]. cbn [c_struct low] in *. apply agree_struct with h; [assumption|lia].
Qed.
Lemma agree_enum A h (l m : list (variant A)) :
  Forall2 (fun v w => fst v = fst w /\ agree_content h (snd v) (snd w)) l m ->
  forall t, height t <= h -> de_enum l t = de_enum m t.
Proof.
  intros H t Ht.
  assert (K : forall name c, low h c -> pick name c l = pick name c m).
  { intros name c Hc. induction H as [|[[n on] d] [[n' on'] d'] l m [E1 E2] H IH]; [reflexivity|].
    cbn in *. injection E1 as <- <-. rewrite IH. now rewrite (E2 c Hc). }
  destruct t; try reflexivity; cbn [de_enum].
  - destruct l0 as [|[] [|c [|]]]; try reflexivity. apply K. cbn [low].
    pose proof (height_in c [TStr s; c] (or_intror (or_introl eq_refl))). lia.
  - destruct (entries key_type l0) as [|[] [|]]; try reflexivity;
      destruct (entries key_content l0) as [|c [|]] eqn:E; try reflexivity; apply K;
      [exact I|].
    assert (Hin : In c (entries key_content l0)) by (rewrite E; now left).
    apply height_entries in Hin. cbn [low]. lia.
Qed.

(** [Display] (to_string) and its inverses: C52.

    [x_str] is [to_string] of the type [x] (Conv.v); [x_from_str] and [x_from_bytes] are its
    [TryFrom<&str>], [x_from] its [From<Atom>] (Conv.v, Ctors.v). *)

From Verif Require Import Bytes BytesFacts Dec Features Types Conv Ctors EncodeCtx Encode EncodeFacts Valid ValidFacts
  ParserFacts RtFacts RtCore RtTac RtCmd RtResp ValueSpec ValueFacts ValueProps Display.

(** ** Threads: the loop ends, does not panic, and prints what the grammar asks for *)
(** RFC 5256: thread-list = "(" (thread-members / thread-nested) ")",
    thread-members = nz-number *(SP nz-number) [SP thread-nested], thread-nested = 2*thread-list *)
Inductive number_list : list N -> bytes -> Prop :=
| number_one n : number_list [n] (dec n)
| number_more n m l x : number_list (m :: l) x -> number_list (n :: m :: l) (dec n ++ bs " " ++ x).
Inductive thread_text : thread -> bytes -> Prop :=
| text_members p x : number_list p x -> thread_text (TMembers p None) (bs "(" ++ x ++ bs ")")
| text_answers p x l y : number_list p x -> threads_text l y ->
    thread_text (TMembers p (Some l)) (bs "(" ++ x ++ bs " " ++ y ++ bs ")")
| text_nested l y : threads_text l y -> thread_text (TNested l) (bs "(" ++ y ++ bs ")")
with threads_text : list thread -> bytes -> Prop :=
| texts_nil : threads_text [] []
| texts_cons t l x y : thread_text t x -> threads_text l y -> threads_text (t :: l) (x ++ y).

Lemma prefix_list p : p <> [] -> exists x, write_prefix p = Some x /\ number_list p x.
Proof.
  destruct p as [| n p]; [easy | intros _]. eexists. split; [reflexivity |].
  revert n. induction p as [| m p IH]; intros n; cbn [flat_map].
  - rewrite app_nil_r. apply number_one.
  - apply (number_more n m p _ (IH m)).
Qed.
Lemma number_list_fun p x : number_list p x -> forall y, number_list p y -> x = y.
Proof.
  induction 1 as [n | n m l x H IH]; intros y H2; inversion H2 as [| n' m' l' x' H3]; subst; [reflexivity |]. now rewrite (IH _ H3).
Qed.
Lemma number_list_cons p x : number_list p x -> p <> [].
Proof. now destruct 1. Qed.
Lemma option_map_app (a b : bytes) o : option_map (app a) (option_map (app b) o) = option_map (app (a ++ b)) o.
Proof. destruct o as [o |]; cbn; [| reflexivity]. now rewrite app_assoc. Qed.

Definition texts (l : list thread) : Prop := exists x, threads_text l x.
(** One thread at the top of the stack *)
Definition printed (t : thread) : Prop := forall x answers stack out,
  thread_text t x -> prints (answers :: stack) out -> prints ((t :: answers) :: stack) (option_map (app x) out).
Lemma printed_list l : Forall printed l -> forall x stack out,
  threads_text l x -> prints stack out -> prints (l :: stack) (option_map (app (x ++ bs ")")) out).
Proof.
  induction 1 as [| t l H Hl IH]; intros x stack out T P; inversion T; subst.
  - now apply prints_pop.
  - rewrite <- app_assoc, <- option_map_app. apply H; [assumption |]. now apply IH.
Qed.
Lemma opened t x : thread_text t x ->
  exists o l y, opens t = Some (o, l) /\ threads_text l y /\ x = o ++ y ++ bs ")".
Proof.
  destruct 1 as [p x H | p x l y H T | l y T].
  - destruct (prefix_list p (number_list_cons _ _ H)) as (z & E & L). rewrite (number_list_fun _ _ H _ L).
    exists (bs "(" ++ z), [], []. cbn [opens]. rewrite E. split; [reflexivity |]. split; [constructor | apply app_assoc].
  - destruct (prefix_list p (number_list_cons _ _ H)) as (z & E & L). rewrite (number_list_fun _ _ H _ L).
    exists (bs "(" ++ z ++ bs " "), l, y. cbn [opens]. rewrite E. split; [reflexivity |]. split; [exact T |].
    now rewrite <- !app_assoc.
  - exists (bs "("), l, y. auto.
Qed.
Definition answers_of (t : thread) : list thread :=
  match t with TMembers _ (Some l) | TNested l => l | _ => [] end.
Lemma opens_answers t o l : opens t = Some (o, l) -> l = answers_of t.
Proof.
  destruct t as [p [a |] | a]; cbn; [| | now intros [= <- <-]].
  all: destruct (write_prefix p); [now intros [= <- <-] | discriminate].
Qed.
Lemma printed_all t : printed t.
Proof.
  assert (K : forall t, Forall printed (answers_of t) -> printed t).
  { clear t. intros t H x answers stack out T P. destruct (opened t x T) as (o & l & y & Eo & Tl & ->).
    rewrite <- option_map_app. eapply prints_push; [exact Eo |]. apply printed_list; try assumption.
    now rewrite (opens_answers _ _ _ Eo). }
  induction t as [p | p l IH | l IH] using thread_ind'; apply K; [apply Forall_nil | exact IH | exact IH].
Qed.
Lemma prints_fun s o : prints s o -> forall o', prints s o' -> o = o'.
Proof.
  induction 1 as [| stack out H IH | t answers stack o l out E H IH | t answers stack E]; intros o' H';
    inversion H' as [| stack' out' K | t' answers' stack' o2 l2 out' E' K | t' answers' stack' E']; subst; try congruence.
  - now rewrite (IH _ K).
  - rewrite E in E'. injection E' as <- <-. now rewrite (IH _ K).
Qed.
Lemma thread_text_total t : v_thread_tree t = true -> exists x, thread_text t x.
Proof.
  assert (L : forall l, Forall (fun t => v_thread_tree t = true -> exists x, thread_text t x) l ->
    forallb v_thread_tree l = true -> exists x, threads_text l x).
  { clear t. induction 1 as [| t l H Hl IH]; intros V; [eexists; apply texts_nil |].
    apply andb_true_iff in V as [V1 V2]. destruct (H V1) as (x & X), (IH V2) as (y & Y).
    eexists. apply (texts_cons t l x y X Y). }
  assert (N : forall p, v1 v_nz32 p = true -> exists x, number_list p x).
  { intros p V. destruct (prefix_list p) as (x & _ & X); [now destruct p | eauto]. }
  induction t as [p | p l IH | l IH] using thread_ind'; cbn [v_thread_tree]; intros V.
  - destruct (N p V) as (x & X). eexists. apply text_members, X.
  - apply andb_true_iff in V as [V V3]. apply andb_true_iff in V as [V1 V2].
    destruct (N p V1) as (x & X), (L l IH V3) as (y & Y). eexists. apply (text_answers p x l y X Y).
  - apply andb_true_iff in V as [V2 V3]. destruct (L l IH V3) as (y & Y). eexists. apply (text_nested l y Y).
Qed.

(** Whatever the thread, of whatever depth: its text is printed, and nothing else. *)
Theorem C52_thread : forall t, v_thread_tree t = true -> exists x, thread_text t x /\
  thread_prints t (Some x) /\ forall out, thread_prints t out -> out = Some x.
Proof.
  intros t V. destruct (thread_text_total t V) as (x & X). exists x. split; [exact X |].
  destruct (opened t x X) as (o & l & y & Eo & Tl & ->).
  assert (P : prints [l] (Some (y ++ bs ")"))).
  { replace (Some (y ++ bs ")")) with (option_map (app (y ++ bs ")")) (Some [])) by (cbn; now rewrite app_nil_r).
    apply printed_list; [| exact Tl | apply prints_end]. apply Forall_forall. intros t' _. apply printed_all. }
  split; [exact (thread_prints_loop t o l _ Eo P) |].
  intros out H. inversion H as [o' l' out' E' P' | E']; subst; [| congruence].
  rewrite Eo in E'. injection E' as <- <-. now rewrite (prints_fun _ _ P' _ P).
Qed.
(** It is what the encoder writes. *)
Lemma dump_B b o : dump (B b :: o) = b :: dump o.
Proof. reflexivity. Qed.
Lemma number_list_dump p x : number_list p x -> dump (joinsp e_num p) = x.
Proof.
  induction 1 as [n | n m l x H IH]; [apply dump_W |].
  change (joinsp e_num (n :: m :: l)) with (e_num n ++ spc ++ joinsp e_num (m :: l)).
  rewrite !dump_app, IH. unfold e_num. now rewrite dump_W.
Qed.
Theorem C52_thread_encoded : forall t x, thread_prints t (Some x) -> v_thread_tree t = true -> dump (e_thread t) = x.
Proof.
  intros t x P V. destruct (C52_thread t V) as (y & T & _ & U). apply U in P. injection P as ->. clear U V.
  assert (L : forall l, Forall (fun t => forall x, thread_text t x -> dump (e_thread t) = x) l ->
    forall x, threads_text l x -> dump (flat_map e_thread l) = x).
  { induction 1 as [| t' l H Hl IH]; intros z Tz; inversion Tz; subst; [reflexivity |].
    cbn [flat_map]. rewrite dump_app. erewrite H, IH by eassumption. reflexivity. }
  revert y T. induction t as [p | p l IH | l IH] using thread_ind'; intros y T; inversion T; subst; cbn [e_thread].
  - unfold paren. rewrite dump_B, !dump_app. erewrite number_list_dump by eassumption. now rewrite app_nil_r.
  - unfold paren. rewrite dump_B, !dump_app. erewrite number_list_dump, L by eassumption. now rewrite <- !app_assoc.
  - unfold paren. rewrite dump_B, !dump_app. erewrite L by eassumption. reflexivity.
Qed.

(** ** Text and back: for every value that the checked constructors can make *)
Lemma atom_conv_ok s : atom_ok s = true -> atom_from_bytes s = COk s.
Proof. intros H. apply atom_ok_spec in H. exact (proj1 atom_conv s H). Qed.
Section Back.
Context {F : features}.
Theorem C52_text_and_back :
  (forall m, v_auth_mechanism LDecoded m = true -> auth_mechanism_from_bytes (auth_mechanism_str m) = COk m) /\
  (forall f, v_flag f = true -> flag_from_str (flag_str f) = COk f) /\
  (forall f, v_attribute_flag f = true -> attribute_flag_from_str (attribute_flag_str f) = COk f) /\
  (forall r, v_resource r = true -> resource_from_bytes (resource_str r) = COk r) /\
  (forall c, v_capability LDecoded c = true -> capability_from_bytes (capability_str c) = COk c) /\
  (forall c, v_capability_enable c = true -> capability_enable_from_str (capability_enable_str c) = COk c) /\
  (forall a, compression_from_bytes (compression_str a) = COk a) /\
  (forall a, v_sort_algorithm a = true -> cmap sort_algorithm_from (atom_from_bytes (sort_algorithm_str a)) = COk a) /\
  (forall a, v_threading_algorithm a = true ->
     cmap threading_algorithm_from (atom_from_bytes (threading_algorithm_str a)) = COk a) /\
  (forall f, v_flag_name f = true -> exists a, flag_name_attribute_str f = bBS :: a /\
     cmap flag_name_attribute_from (atom_from_bytes a) = COk f).
Proof.
  split; [| split; [| split; [| split; [| split; [| split; [| split; [| split; [| split]]]]]]]].
  - intros m V. apply auth_from_str in V as [A E]. unfold auth_mechanism_from_bytes. rewrite (atom_conv_ok _ A). cbn. now rewrite E.
  - intros f V. assert (K : (exists a, f = FExtension a) \/ (exists a, f = FKeyword a) \/ flag_known f)
      by (destruct f; eauto; right; right; exact I).
    destruct K as [(a & ->) | [(a & ->) | K]].
    + cbn [v_flag] in V. apply andb_true_iff in V as [A V]. cbn [flag_str flag_from_str]. change (beq bBS bBS) with true.
      cbv iota. rewrite (validate_atom_ok _ A). cbn. f_equal. revert V. unfold flag_system. cbv zeta. chain; easy.
    + cbn [v_flag flag_str] in *. unfold flag_from_str. rewrite (validate_atom_ok _ V).
      destruct a as [| c a]; [reflexivity |]. destruct (beq_spec c bBS) as [-> | _]; [discriminate | reflexivity].
    + apply C32_known_names; [exact K |]. now apply same_letters_spec.
  - intros f V. assert (K : (exists a, f = AFExtension a) \/ (exists a, f = AFKeyword a) \/ attribute_flag_known f)
      by (destruct f; eauto; right; right; exact I).
    destruct K as [(a & ->) | [(a & ->) | K]].
    + cbn [v_attribute_flag] in V. apply andb_true_iff in V as [A V]. cbn [attribute_flag_str attribute_flag_from_str].
      change (beq bBS bBS && beq bBS bBS)%bool with true.
      cbv iota. rewrite (validate_atom_ok _ A). cbn. f_equal. revert V. unfold attribute_flag_system. cbv zeta. chain; easy.
    + cbn [v_attribute_flag attribute_flag_str] in *. unfold attribute_flag_from_str. rewrite (validate_atom_ok _ V).
      destruct a as [| c [| d a]]; [reflexivity | reflexivity |].
      destruct (beq_spec c bBS) as [-> | _]; [discriminate | reflexivity].
    + apply C32_known_names; [exact K |]. now apply same_letters_spec.
  - intros r V. apply resource_from_str in V as [A E]. unfold resource_from_bytes. rewrite (atom_conv_ok _ A). cbn. now rewrite E.
  - intros c V. apply capability_from_str in V as [A E]. unfold capability_from_bytes. rewrite (atom_conv_ok _ A). cbn. now rewrite E.
  - intros c V. apply enable_from in V as [A E]. unfold capability_enable_from_str. rewrite (validate_atom_ok _ A). cbn. now rewrite E.
  - intros []. reflexivity.
  - intros a V. apply sort_from_str in V as [A E]. rewrite (atom_conv_ok _ A). cbn. now rewrite E.
  - intros a V. apply threading_from_str in V as [A E]. rewrite (atom_conv_ok _ A). cbn. now rewrite E.
  - intros f V. destruct f as [| | | | a]; try (eexists; split; reflexivity).
    cbn [v_flag_name] in V. apply andb_true_iff in V as [A V]. exists a. split; [reflexivity |].
    rewrite (atom_conv_ok _ A). cbn. f_equal. revert V. unfold flag_name_attribute_from. cbv zeta. chain; easy.
Qed.
End Back.
Print Assumptions C52_thread.
Print Assumptions C52_thread_encoded.
Print Assumptions C52_text_and_back.

(** ** The theorems are not vacuous *)
Definition ex_thread : thread :=
  TMembers [3; 6]%N (Some [TMembers [4; 23]%N None; TNested [TMembers [44]%N (Some [TMembers [7]%N None; TMembers [96]%N None]); TMembers [1]%N None]]).
Example C52_thread_run : v_thread_tree ex_thread = true /\
  thread_prints ex_thread (Some (bs "(3 6 (4 23)((44 (7)(96))(1)))")).
Proof.
  split; [reflexivity |].
  assert (V : v_thread_tree ex_thread = true) by reflexivity.
  destruct (C52_thread ex_thread V) as (x & _ & P & _).
  assert (E : x = bs "(3 6 (4 23)((44 (7)(96))(1)))")
    by (rewrite <- (C52_thread_encoded _ _ P V); vm_compute; reflexivity).
  now rewrite <- E.
Qed.
(** An empty prefix, which [Vec1] rules out, makes it panic. *)
Example C52_thread_panics : thread_prints (TNested [TMembers [1]%N None; TMembers [] None]) None.
Proof.
  apply (thread_prints_loop _ (bs "(") [TMembers [1]%N None; TMembers [] None] None); [reflexivity |].
  eapply (prints_push _ _ _ _ _ None); [reflexivity |]. apply (prints_pop _ None). now apply prints_panic.
Qed.
Example C52_values : v_flag (FExtension (bs "x")) = true /\ v_attribute_flag (AFKeyword (bs "k")) = true /\
  v_capability (F := default_features) LDecoded (CapAuth (AMOther (bs "XYZ"))) = true /\
  v_flag_name (FNExtension (bs "HasChildren")) = true.
Proof. repeat split; vm_compute; reflexivity. Qed.

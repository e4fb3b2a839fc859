(** C72: a stream can be read in only one way. Whatever the features, no message is the beginning of another
    message of its kind, so that the bytes of a stream determine where each message ends: two ways to cut
    a stream into messages (texts of the syntax of AbnfSpec.v as it is accepted) are the same. *)

From Verif Require Import Bytes Features Nom Types Decode DecodeSpec DecodeProps AbnfSpec AbnfProps AbnfRespProps.

(** The kinds of messages; which one is next is known from the state of the connection. *)
Definition kinds : list abnf := [Ref Command; Ref AuthenticateData; Ref IdleDone; Ref Greeting; Ref Response].

Lemma one_end {A E} (dec : bytes -> outcome E A) (T : bytes -> Prop) :
  (forall i r, (exists c, dec i = Decoded r c) <-> exists t, i = t ++ r /\ T t) ->
  forall t x u y, T t -> T u -> t ++ x = u ++ y -> t = u /\ x = y.
Proof.
  intros H t x u y A1 A2 E0.
  destruct (proj2 (H (t ++ x) x) (ex_intro _ t (conj eq_refl A1))) as [c C].
  destruct (proj2 (H (u ++ y) y) (ex_intro _ u (conj eq_refl A2))) as [d D].
  rewrite E0, D in C. injection C as <- _. apply app_inv_tail in E0. auto.
Qed.
Theorem C72_one_end : forall (F : features) k, In k kinds -> forall t x u y, accepted k t -> accepted k u -> t ++ x = u ++ y -> t = u /\ x = y.
Proof.
  intros F k K. destruct K as [<- | [<- | [<- | [<- | [<- | []]]]]].
  - exact (one_end decode_command _ C69_command).
  - exact (one_end decode_authenticate_data _ C69_authenticate_data).
  - exact (one_end decode_idle_done _ C69_idle_done).
  - exact (one_end decode_greeting _ C70_greeting).
  - exact (one_end decode_response _ C70_response).
Qed.
(** No message is the beginning of another one. *)
Theorem C72_prefix_free : forall (F : features) k t x, In k kinds -> accepted k t -> accepted k (t ++ x) -> x = [].
Proof.
  intros F k t x K A B. destruct (C72_one_end F k K t x (t ++ x) [] A B) as [_ E]; [now rewrite app_nil_r | exact E].
Qed.
(** The messages of a connection, whose kinds [ks] are known, and the bytes [x] that are not a whole message yet *)
Theorem C72_one_reading : forall (F : features) ks ts us x y, (forall k, In k ks -> In k kinds) ->
  Forall2 accepted ks ts -> Forall2 accepted ks us -> concat ts ++ x = concat us ++ y -> ts = us /\ x = y.
Proof.
  intros F ks ts us x y K A. revert us. induction A as [| k t ks ts T A IH]; intros us B E; inversion B; subst; [auto |].
  cbn [concat] in E. rewrite <- !app_assoc in E.
  edestruct (C72_one_end F k (K k (or_introl eq_refl))) as [-> E2]; [exact T | eassumption | exact E |].
  edestruct IH as [-> ->]; [| eassumption | exact E2 | auto]. intros z Z. apply K. now right.
Qed.
(** Nor can it be read as more or fewer messages: a client sends commands, a server a greeting and responses. *)
Lemma not_nothing {A E} (dec : bytes -> outcome E A) (T : bytes -> Prop) : stable dec ->
  (forall i r, (exists c, dec i = Decoded r c) <-> exists t, i = t ++ r /\ T t) -> ~ T [].
Proof.
  intros S H A1. destruct (proj2 (H [] []) (ex_intro _ [] (conj eq_refl A1))) as [c C]. destruct (S [] [] c C) as [[u U] _]. now destruct u.
Qed.
Lemma nonempty (F : features) k : In k kinds -> ~ accepted k [].
Proof.
  intros K. destruct K as [<- | [<- | [<- | [<- | [<- | []]]]]].
  - exact (not_nothing _ _ C15_command_stable C69_command).
  - exact (not_nothing _ _ C15_authenticate_data_stable C69_authenticate_data).
  - exact (not_nothing _ _ C15_idle_done_stable C69_idle_done).
  - exact (not_nothing _ _ C15_greeting_stable C70_greeting).
  - exact (not_nothing _ _ C15_response_stable C70_response).
Qed.
Theorem C72_same_kind : forall (F : features) k ts us, In k kinds -> Forall (accepted k) ts -> Forall (accepted k) us -> concat ts = concat us -> ts = us.
Proof.
  intros F k ts us K A. revert us. induction A as [| t ts T A IH]; intros us B E.
  - destruct B as [| u us U B]; [reflexivity |]. cbn [concat] in E. symmetry in E. apply app_eq_nil in E as [-> _]. now apply nonempty in U.
  - destruct B as [| u us U B]; cbn [concat] in E; [apply app_eq_nil in E as [-> _]; now apply nonempty in T |].
    destruct (C72_one_end F k K _ _ _ _ T U E) as [-> E2]. now rewrite (IH us B E2).
Qed.
Theorem C72_server : forall (F : features) g ts h us, accepted Greeting g -> accepted Greeting h ->
  Forall (accepted Response) ts -> Forall (accepted Response) us -> g ++ concat ts = h ++ concat us -> g = h /\ ts = us.
Proof.
  intros F g ts h us G H A B E. destruct (C72_one_end F Greeting ltac:(cbn; tauto) _ _ _ _ G H E) as [-> E2]. split; [reflexivity |].
  apply (C72_same_kind F Response); [cbn; tauto | assumption ..].
Qed.
(** What is documented (and within the limits) cannot be taken for anything else. *)
Theorem C72_documented : forall (F : features) k ts us, In k kinds -> Forall (common k) ts -> Forall (accepted k) us -> concat ts = concat us -> ts = us.
Proof.
  intros F k ts us K A. apply C72_same_kind; [exact K |]. revert A. apply Forall_impl. intros t. now apply C69_between.
Qed.
(** The kind has to be known: DONE is the end of IDLE, and base64. *)
Theorem C72_kind_needed_refuted : ~ forall (F : features) j k t, In j kinds -> In k kinds -> accepted j t -> accepted k t -> j = k.
Proof.
  intros H. enough (X : Ref IdleDone = Ref AuthenticateData) by discriminate X.
  apply (H default_features IdleDone AuthenticateData (bs "DONE" ++ [bCR; bLF])); [cbn; tauto .. | |].
  - destruct (proj1 (@C69_idle_done default_features (bs "DONE" ++ [bCR; bLF]) [])) as (t & E & A); [eexists; vm_compute; reflexivity |].
    rewrite app_nil_r in E. now rewrite E.
  - destruct (proj1 (@C69_authenticate_data default_features (bs "DONE" ++ [bCR; bLF]) [])) as (t & E & A); [eexists; vm_compute; reflexivity |].
    rewrite app_nil_r in E. now rewrite E.
Qed.
Print Assumptions C72_one_end.
Print Assumptions C72_prefix_free.
Print Assumptions C72_one_reading.
Print Assumptions C72_same_kind.
Print Assumptions C72_server.
Print Assumptions C72_documented.
Print Assumptions C72_kind_needed_refuted.

(** A stream with a literal inside: there is one way to read it. *)
Definition stream : list bytes := [bs "a LOGIN {1}" ++ [bCR; bLF] ++ bs "x y" ++ [bCR; bLF]; bs "b NOOP" ++ [bCR; bLF]].
Example C72_hyp : Forall (accepted (F := default_features) Command) stream.
Proof.
  assert (X : forall t, (exists c, @decode_command default_features t = Decoded [] c) -> accepted (F := default_features) Command t).
  { intros t H. apply C69_command in H as (u & E & A). rewrite app_nil_r in E. now rewrite E. }
  repeat (apply Forall_cons; [apply X; eexists; vm_compute; reflexivity |]); constructor.
Qed.
Example C72_cut : forall us, Forall (accepted (F := default_features) Command) us ->
  concat us = bs "a LOGIN {1}" ++ [bCR; bLF] ++ bs "x y" ++ [bCR; bLF] ++ bs "b NOOP" ++ [bCR; bLF] -> length us = 2%nat.
Proof.
  intros us U E. rewrite (C72_same_kind default_features Command us stream); [reflexivity | cbn; tauto | exact U | exact C72_hyp | exact E].
Qed.

(** C58: reading with a buffer and the decoders alone gives the same messages however the bytes
    arrive. The reader is defined in ReaderSpec.v. *)

From Verif Require Import Bytes BytesFacts Features Nom Types Decode DecodeSpec DecodeProps ReaderSpec.
Open Scope nat_scope.

Section Reader.
Context {St E A : Type} (dec : St -> bytes -> outcome E A) (failed : E -> bool) (next : St -> A -> St).
Context (STABLE : forall s, stable (dec s)) (FINAL : forall s, final_failure failed (dec s)) (SAFE : forall s i, dec s i <> Panic).
Notation drain := (drain dec failed next).
Notation arrive := (arrive dec failed next).
Notation arrive_all := (arrive_all dec failed next).

Lemma shorter s i r a : dec s i = Decoded r a -> length r < length i.
Proof. intros H. destruct (proj1 (STABLE s _ _ _ H)) as (c & ->). rewrite !app_length. cbn. lia. Qed.

(* Enough turns are enough. *)
Lemma drain_turns n : forall m s b, length b < n -> length b < m -> drain n s b = drain m s b.
Proof.
  induction n as [| n IH]; intros [| m] s b Hn Hm; try lia. cbn [ReaderSpec.drain].
  destruct (dec s b) as [r x | e |] eqn:D; try reflexivity. apply shorter in D. rewrite (IH m); [reflexivity | lia | lia].
Qed.
(* More bytes after draining: as if they had been there before. *)
Lemma drain_app n : forall s b c, length (b ++ c) < n ->
  forall r1 l1, drain n s b = (r1, l1) ->
  let '(r2, l2) := arrive r1 c in drain n s (b ++ c) = (r2, l1 ++ l2).
Proof.
  induction n as [| n IH]; intros s b c Hn r1 l1 D; [lia |]. cbn [ReaderSpec.drain] in D.
  destruct (dec s b) as [r x | e |] eqn:X.
  - pose proof (shorter _ _ _ _ X) as L. destruct (drain n (next s x) r) as [r0 l0] eqn:Y. injection D as <- <-.
    rewrite app_length in Hn. specialize (IH (next s x) r c ltac:(rewrite app_length; lia) _ _ Y).
    destruct (arrive r0 c) as [r2 l2]. cbn [ReaderSpec.drain]. rewrite (proj2 (STABLE s _ _ _ X) c). rewrite IH. reflexivity.
  - injection D as <- <-. unfold ReaderSpec.arrive. cbn [rd_stopped rd_state rd_buffer]. destruct (failed e) eqn:Fe.
    + cbn [ReaderSpec.drain app]. rewrite (FINAL s _ _ c X Fe). now rewrite Fe.
    + rewrite (drain_turns (S n) (S (length (b ++ c)))) by lia. destruct (drain _ s (b ++ c)). reflexivity.
  - exfalso. exact (SAFE s b X).
Qed.
Lemma arrive_app r a b : let '(r1, l1) := arrive r a in let '(r2, l2) := arrive r1 b in arrive r (a ++ b) = (r2, l1 ++ l2).
Proof.
  destruct r as [s bf st]. unfold ReaderSpec.arrive at 1 3. cbn [rd_stopped rd_state rd_buffer]. destruct st.
  - unfold ReaderSpec.arrive. cbn [rd_stopped rd_state rd_buffer]. now rewrite app_assoc.
  - set (n := S (length (bf ++ a ++ b))).
    assert (Hn : length ((bf ++ a) ++ b) < n) by (rewrite <- app_assoc; unfold n; lia).
    assert (Ha : length (bf ++ a) < n) by (rewrite app_length in Hn; lia).
    rewrite (drain_turns (S (length (bf ++ a))) n) by lia. destruct (drain n s (bf ++ a)) as [r1 l1] eqn:D.
    pose proof (drain_app n s (bf ++ a) b Hn _ _ D) as H. destruct (arrive r1 b) as [r2 l2]. now rewrite <- app_assoc in H.
Qed.
Lemma drained_again n : forall s b r l, length b < n -> drain n s b = (r, l) -> arrive r [] = (r, []).
Proof.
  induction n as [| n IH]; intros s b r l Hn D; [lia |]. cbn [ReaderSpec.drain] in D.
  destruct (dec s b) as [r0 x | e |] eqn:X.
  - pose proof (shorter _ _ _ _ X) as L. destruct (drain n (next s x) r0) as [r1 l1] eqn:Y. injection D as <- <-.
    apply (IH (next s x) r0 r1 l1); [lia | exact Y].
  - injection D as <- <-. unfold ReaderSpec.arrive. cbn [rd_stopped rd_state rd_buffer]. rewrite app_nil_r.
    destruct (failed e) eqn:Fe; [reflexivity |]. cbn [ReaderSpec.drain]. now rewrite X, Fe.
  - exfalso. exact (SAFE s b X).
Qed.
Lemma arrived_again r a : let '(r1, _) := arrive r a in arrive r1 [] = (r1, []).
Proof.
  destruct r as [s bf st]. unfold ReaderSpec.arrive at 1. cbn [rd_stopped rd_state rd_buffer]. destruct st.
  - unfold ReaderSpec.arrive. cbn [rd_stopped rd_state rd_buffer]. now rewrite app_nil_r.
  - destruct (drain _ s (bf ++ a)) as [r l] eqn:D. apply (drained_again _ _ _ _ _ (Nat.lt_succ_diag_r _) D).
Qed.
Lemma reader_chunks : forall chunks r, chunks <> [] -> arrive_all r chunks = arrive r (concat chunks).
Proof.
  induction chunks as [| c chunks IH]; intros r H; [easy |]. cbn [ReaderSpec.arrive_all concat].
  destruct chunks as [| d chunks].
  - cbn [ReaderSpec.arrive_all concat]. rewrite app_nil_r. destruct (arrive r c) as [r1 l1]. now rewrite app_nil_r.
  - pose proof (arrive_app r c (concat (d :: chunks))) as X. destruct (arrive r c) as [r1 l1].
    rewrite (IH r1) by discriminate. destruct (arrive r1 (concat (d :: chunks))) as [r2 l2]. now rewrite X.
Qed.
(** What the reader ends with is what the stream holds, and it waits or has stopped rightly. *)
Lemma drain_holds n : forall s b r l, length b < n -> drain n s b = (r, l) ->
  holds dec next s b l (rd_state r) (rd_buffer r) /\
  exists e, dec (rd_state r) (rd_buffer r) = Error e /\ rd_stopped r = failed e.
Proof.
  induction n as [| n IH]; intros s b r l Hn D; [lia |]. cbn [ReaderSpec.drain] in D.
  destruct (dec s b) as [r0 x | e |] eqn:X.
  - pose proof (shorter _ _ _ _ X) as L. destruct (drain n (next s x) r0) as [r1 l1] eqn:Y. injection D as <- <-.
    destruct (IH _ r0 r1 l1 ltac:(lia) Y) as [H1 H2]. split; [| exact H2].
    destruct (proj1 (STABLE s _ _ _ X)) as (c & Eb). rewrite app_assoc in Eb. subst b. now apply holds_more.
  - injection D as <- <-. cbn. split; [constructor |]. eauto.
  - exfalso. exact (SAFE s b X).
Qed.
Lemma reader_holds s chunks r l : chunks <> [] -> arrive_all (mkReader s [] false) chunks = (r, l) ->
  holds dec next s (concat chunks) l (rd_state r) (rd_buffer r) /\
  exists e, dec (rd_state r) (rd_buffer r) = Error e /\ rd_stopped r = failed e.
Proof.
  intros N H. rewrite reader_chunks in H by exact N. apply (drain_holds _ _ _ _ _ (Nat.lt_succ_diag_r _) H).
Qed.
(** [holds] leaves no choice: the messages of the stream are determined. *)
Lemma holds_prefix s i l s1 r1 : holds dec next s i l s1 r1 -> forall l' s2 r2, holds dec next s i l' s2 r2 ->
  (exists e, dec s2 r2 = Error e) -> exists more, l' = l ++ more.
Proof.
  induction 1 as [s i | s m rest x l s1 r1 D H IH]; intros l' s2 r2 H' (e & Ee); [now exists l' |].
  remember (m ++ rest) as i eqn:Ei. destruct H' as [s i | s m' rest' x' l' s2 r2 D' H'].
  - subst i. congruence.
  - rewrite D in D'. injection D' as <- <-.
    destruct (IH _ _ _ H' (ex_intro _ e Ee)) as (more & ->). now exists more.
Qed.
End Reader.

Section Roles.
Context {F : features}.
Lemma lift_stable {E A B} failed (f : A -> B) (d : bytes -> outcome E A) : stable d -> stable (fun i => lift failed f (d i)).
Proof.
  intros H i r b X. unfold lift in X |- *. destruct (d i) as [r' a | |] eqn:D; try discriminate. injection X as <- <-.
  destruct (H _ _ _ D) as [H1 H2]. split; [exact H1 |]. intros more. now rewrite H2.
Qed.
Lemma lift_final {E A B} failed (f : A -> B) (d : bytes -> outcome E A) : final_failure failed d -> final_failure (fun b => b) (fun i => lift failed f (d i)).
Proof.
  intros H i e more X T. unfold lift in X |- *. destruct (d i) as [r' a | e' |] eqn:D; try discriminate. injection X as <-.
  now rewrite (H _ _ more D T).
Qed.
Lemma client_stable e : stable (decode_client e).
Proof.
  destruct e; [apply (lift_stable _ _ decode_command) | apply (lift_stable _ _ decode_authenticate_data) | apply (lift_stable _ _ decode_idle_done)].
  - exact C15_command_stable.
  - exact C15_authenticate_data_stable.
  - exact C15_idle_done_stable.
Qed.
Lemma client_final e : final_failure (fun b => b) (decode_client e).
Proof.
  destruct e; [apply (lift_final _ _ decode_command) | apply (lift_final _ _ decode_authenticate_data) | apply (lift_final _ _ decode_idle_done)].
  - exact C16_command_failure_final.
  - exact C16_authenticate_data_failure_final.
  - exact C16_idle_done_failure_final.
Qed.
Lemma client_safe e i : decode_client e i <> Panic.
Proof.
  destruct (C20_no_panic i) as (P1 & P2 & P3 & P4 & P5).
  destruct e; cbn; unfold lift; [destruct (decode_command i) | destruct (decode_authenticate_data i) | destruct (decode_idle_done i)]; congruence.
Qed.
Lemma server_stable e : stable (decode_server e).
Proof.
  destruct e; [apply (lift_stable _ _ decode_response) | apply (lift_stable _ _ decode_greeting)].
  - exact C15_response_stable.
  - exact C15_greeting_stable.
Qed.
Lemma server_final e : final_failure (fun b => b) (decode_server e).
Proof.
  destruct e; [apply (lift_final _ _ decode_response) | apply (lift_final _ _ decode_greeting)].
  - exact C16_response_failure_final.
  - exact C16_greeting_failure_final.
Qed.
Lemma server_safe e i : decode_server e i <> Panic.
Proof.
  destruct (C20_no_panic i) as (P1 & P2 & P3 & P4 & P5).
  destruct e; cbn; unfold lift; [destruct (decode_response i) | destruct (decode_greeting i)]; congruence.
Qed.

(** A server, for every way to choose what it expects next: two ways to cut the same bytes into
    chunks give the same messages and the same end. *)
Theorem C58_server_chunks : forall (next : expects -> client_message -> expects) s chunks chunks',
  chunks <> [] -> chunks' <> [] -> concat chunks = concat chunks' ->
  arrive_all decode_client (fun b => b) next (mkReader s [] false) chunks =
  arrive_all decode_client (fun b => b) next (mkReader s [] false) chunks'.
Proof.
  intros next s c c' N N' H.
  rewrite !(reader_chunks decode_client (fun b => b) next client_stable client_final client_safe) by assumption. now rewrite H.
Qed.
(** What it has read is what the stream holds; it waits exactly if the decoder asks for more. *)
Theorem C58_server_reads : forall (next : expects -> client_message -> expects) s chunks r l, chunks <> [] ->
  arrive_all decode_client (fun b => b) next (mkReader s [] false) chunks = (r, l) ->
  holds decode_client next s (concat chunks) l (rd_state r) (rd_buffer r) /\
  decode_client (rd_state r) (rd_buffer r) = Error (rd_stopped r).
Proof.
  intros next s c r l N H.
  destruct (reader_holds decode_client (fun b => b) next client_stable client_final client_safe s c r l N H) as (H1 & e & H2 & ->). auto.
Qed.
(** Everything the stream holds is read. *)
Theorem C58_server_all : forall (next : expects -> client_message -> expects) s chunks r l l' s' rest, chunks <> [] ->
  arrive_all decode_client (fun b => b) next (mkReader s [] false) chunks = (r, l) ->
  holds decode_client next s (concat chunks) l' s' rest -> exists more, l = l' ++ more.
Proof.
  intros next s c r l l' s' rest N H H'. destruct (C58_server_reads next s c r l N H) as [H1 H2].
  apply (holds_prefix decode_client next _ _ _ _ _ H' _ _ _ H1). eauto.
Qed.
(** The same for a client, which first expects a greeting. *)
Theorem C58_client_chunks : forall (next : bool -> server_message -> bool) s chunks chunks',
  chunks <> [] -> chunks' <> [] -> concat chunks = concat chunks' ->
  arrive_all decode_server (fun b => b) next (mkReader s [] false) chunks =
  arrive_all decode_server (fun b => b) next (mkReader s [] false) chunks'.
Proof.
  intros next s c c' N N' H.
  rewrite !(reader_chunks decode_server (fun b => b) next server_stable server_final server_safe) by assumption. now rewrite H.
Qed.
Theorem C58_client_reads : forall (next : bool -> server_message -> bool) s chunks r l, chunks <> [] ->
  arrive_all decode_server (fun b => b) next (mkReader s [] false) chunks = (r, l) ->
  holds decode_server next s (concat chunks) l (rd_state r) (rd_buffer r) /\
  decode_server (rd_state r) (rd_buffer r) = Error (rd_stopped r).
Proof.
  intros next s c r l N H.
  destruct (reader_holds decode_server (fun b => b) next server_stable server_final server_safe s c r l N H) as (H1 & e & H2 & ->). auto.
Qed.
Theorem C58_client_all : forall (next : bool -> server_message -> bool) s chunks r l l' s' rest, chunks <> [] ->
  arrive_all decode_server (fun b => b) next (mkReader s [] false) chunks = (r, l) ->
  holds decode_server next s (concat chunks) l' s' rest -> exists more, l = l' ++ more.
Proof.
  intros next s c r l l' s' rest N H H'. destruct (C58_client_reads next s c r l N H) as [H1 H2].
  apply (holds_prefix decode_server next _ _ _ _ _ H' _ _ _ H1). eauto.
Qed.
End Roles.

(** ** Examples *)
Section ReaderExamples.
#[local] Existing Instance default_features.
Definition polite (e : expects) (m : client_message) : expects :=
  match m with
  | FromCommand (mkCommand _ (CAuthenticate _ None)) => ExpectAuthenticateData
  | FromCommand (mkCommand _ CIdle) => ExpectIdleDone
  | _ => ExpectCommand
  end.
Definition session : bytes :=
  bs "a AUTHENTICATE PLAIN" ++ [bCR; bLF] ++ bs "AGEAYg==" ++ [bCR; bLF] ++ bs "b IDLE" ++ [bCR; bLF] ++ bs "DONE" ++ [bCR; bLF] ++
  bs "c LOGIN {3}" ++ [bCR; bLF] ++ bs "abc d" ++ [bCR; bLF] ++ bs "d NO".
Definition by_byte : list bytes := map (fun b => [b]) session.
Example C58_ex : concat by_byte = session /\
  arrive_all decode_client (fun b => b) polite (mkReader ExpectCommand [] false) by_byte =
  (mkReader ExpectCommand (bs "d NO") false,
   [FromCommand (mkCommand (bs "a") (CAuthenticate AMPlain None)); FromAuthenticateData (ADContinue [x00; "a"%byte; x00; "b"%byte]);
    FromCommand (mkCommand (bs "b") CIdle); FromIdleDone;
    FromCommand (mkCommand (bs "c") (CLogin (AString (ILiteral (mkLit (bs "abc") Sync))) (AAtom (bs "d"))))]).
Proof. vm_compute. split; reflexivity. Qed.
Example C58_client_ex :
  arrive_all decode_server (fun b => b) (fun _ _ => true) (mkReader false [] false) [bs "* OK h"; bs "i" ++ [bCR; bLF] ++ bs "* 3 EXI"; bs "STS" ++ [bCR; bLF] ++ bs "* *"; [bCR; bLF]] =
  (mkReader true (bs "* *" ++ [bCR; bLF]) true,
   [FromGreeting (mkGreeting GKOk None (bs "hi")); FromResponse (RData (DExists 3))]).
Proof. vm_compute. reflexivity. Qed.
End ReaderExamples.

Print Assumptions C58_server_chunks.
Print Assumptions C58_server_reads.
Print Assumptions C58_server_all.
Print Assumptions C58_client_chunks.
Print Assumptions C58_client_reads.
Print Assumptions C58_client_all.

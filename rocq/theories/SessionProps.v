(** Sessions of a client and the server of examples/server.rs: C41.

    The model of the session is in Session.v, what the server must learn in SessionSpec.v. *)

From Verif Require Import Bytes BytesFacts Features Nom Types EncodeCtx EncodeApi Decode Valid Fragmentizer FragSpec
  RoundTripSpec StreamSpec Session SessionSpec SessionFacts.
Open Scope nat_scope.

Section Session.
Context {F : features}.

(** ** C41: client and server never wait for each other for ever *)
(** Whatever the requests, the limits of the server, and the order in which client, server and
    network act, what the server has learned is always a beginning of what it must learn from
    the requests, in order, and the client never gets a reply it does not expect. *)
Theorem C41_in_order : forall max lim rs n,
  Forall (acceptable max) rs -> reaches lim (net_new max rs) n ->
  n_phase n <> Confused /\ exists more, n_log n ++ more = flat_map (outcome_of max lim) rs.
Proof.
  intros max lim rs n A R. destruct (inv_reaches _ _ _ _ A R) as (r & es & z & st & more & _ & V & _ & E & _).
  split; [intros C; now rewrite C in V |]. eexists. exact E.
Qed.
(** As long as not everything is done, something can happen: no deadlock. *)
Theorem C41_no_deadlock : forall max lim rs n,
  Forall (acceptable max) rs -> reaches lim (net_new max rs) n ->
  (exists n', happens lim n n') \/ (done n /\ n_log n = flat_map (outcome_of max lim) rs).
Proof. intros max lim rs n A R. apply (inv_progress max). now apply inv_reaches. Qed.
(** Nothing happens for ever: every session is finite, from whatever state it starts. *)
Theorem C41_terminates : forall lim, well_founded (fun n' n => happens lim n n').
Proof. apply happens_wf. Qed.
(** Together: from every state that can be reached, the session can be and will be completed, with
    every request received or refused, exactly once and in order. *)
Theorem C41_completes : forall max lim rs n,
  Forall (acceptable max) rs -> reaches lim (net_new max rs) n ->
  exists n', reaches lim n n' /\ done n' /\ n_log n' = flat_map (outcome_of max lim) rs.
Proof.
  intros max lim rs n A. induction n as [n IH] using (well_founded_induction (C41_terminates lim)). intros R.
  destruct (C41_no_deadlock _ _ _ _ A R) as [(n' & H) | (D & E)].
  - destruct (IH n' H) as (n'' & R2 & D & E); [now apply reaches_step with n |].
    exists n''. split; [| auto]. clear -H R2. induction R2 as [| a b R2 IH2 S].
    + eapply reaches_step; [apply reaches_refl | exact H].
    + eapply reaches_step; [exact IH2 | exact S].
  - exists n. split; [apply reaches_refl | auto].
Qed.
(** What can no longer move has completed. *)
Theorem C41_stopped : forall max lim rs n,
  Forall (acceptable max) rs -> reaches lim (net_new max rs) n -> (forall n', ~ happens lim n n') ->
  done n /\ n_log n = flat_map (outcome_of max lim) rs.
Proof.
  intros max lim rs n A R N. destruct (C41_no_deadlock _ _ _ _ A R) as [(n' & H) | K]; [now destruct (N n') | exact K].
Qed.
End Session.

Print Assumptions C41_in_order.
Print Assumptions C41_no_deadlock.
Print Assumptions C41_terminates.
Print Assumptions C41_completes.
Print Assumptions C41_stopped.

(** A session with small limits (100 bytes per message, 10 per literal): a LOGIN with a literal of each kind, an empty literal,
    AUTHENTICATE, IDLE, a refused literal, a command that is too long, NOOP *)
Definition lit (m : lit_mode) (n : N) : astring := AString (ILiteral (mkLit (repeat "x"%byte (N.to_nat n)) m)).
Definition requests : list request :=
  [mkRequest (mkCommand (bs "A1") (CLogin (lit Sync 3%N) (lit NonSync 4%N))) ADCancel;
   mkRequest (mkCommand (bs "A2") (CAuthenticate AMPlain None)) (ADContinue (bs "secret"));
   mkRequest (mkCommand (bs "A3") CIdle) ADCancel;
   mkRequest (mkCommand (bs "A4") (CLogin (lit Sync 0%N) (lit Sync 11%N))) ADCancel;
   mkRequest (mkCommand (bs "A5") (CLogin (lit NonSync 60%N) (lit NonSync 60%N))) ADCancel;
   mkRequest (mkCommand (bs "A6") CNoop) ADCancel].
Example C41_acceptable : Forall (acceptable (F := default_features) 100) requests.
Proof. repeat constructor; now vm_compute. Qed.
Definition session_end : net :=
  play (F := default_features) 10 200 (net_new 100 requests).
Example C41_session : done session_end /\
  map (fun e => match e with
    | EvCommand (DMOk c) => (1, cmd_tag c) | EvCommand (DMTooLong m) => (2, firstn 2 m)
    | EvData (DMOk (ADContinue d)) => (3, d) | EvDone (DMOk tt) => (4, []) | EvRefused t => (5, t) | _ => (0, [])
    end) (n_log session_end) =
  [(1, bs "A1"); (1, bs "A2"); (3, bs "secret"); (1, bs "A3"); (4, []); (5, bs "A4"); (2, bs "A5"); (1, bs "A6")].
Proof. split; [repeat split |]; vm_compute; reflexivity. Qed.

(** The tag must fit into a message: if it does not, the server cannot name the command whose
    literal it does not want. It answers nothing ([poison_message]), and the client waits for
    ever. *)
Definition long_request : request :=
  mkRequest (mkCommand (repeat "x"%byte 100) (CLogin (lit Sync 11%N) (lit Sync 1%N))) ADCancel.
Theorem C41_long_tag_refuted : exists n,
  v_command (F := default_features) LDecoded (rq_command long_request) = true /\
  reaches (F := default_features) 10 (net_new 100 [long_request]) n /\
  (forall n', ~ happens (F := default_features) 10 n n') /\ ~ done n /\ n_log n = [].
Proof.
  exists (play (F := default_features) 10 20 (net_new 100 [long_request])).
  split; [now vm_compute |]. split; [apply play_reaches, reaches_refl |]. split; [| split].
  - intros n'. apply next_none. now vm_compute.
  - intros (_ & H & _). revert H. vm_compute. discriminate.
  - now vm_compute.
Qed.
Print Assumptions C41_long_tag_refuted.

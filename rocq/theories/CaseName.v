(** The case of the name of a command: the parsers give exactly the same for every spelling. For C36. *)

From Verif Require Import Bytes BytesFacts Dec Features Nom Types Conv ParseCore ParseBody ParseCmd ValueSpec ValueFacts
  CaseFacts CaseParse.
Open Scope nat_scope.

(** What is left of two spellings of a word *)
Definition spelt (k k' : bytes) : Prop := forallb is_alpha k = true /\ lowers k = lowers k'.
Definition eqr {A} (s : bytes) (r r' : res A) : Prop :=
  r = r' \/ exists c k c' k' a, spelt (c :: k) (c' :: k') /\ r = ROk ((c :: k) ++ s) a /\ r' = ROk ((c' :: k') ++ s) a.
Lemma lower_alpha b : is_alpha (lower b) = is_alpha b.
Proof. revert b. apply low_class_check. vm_compute. reflexivity. Qed.
Lemma kw_case o : forall k k' s, spelt k k' ->
  eqr s (tag_no_case o (k ++ s)) (tag_no_case o (k' ++ s)) /\
  (forallb is_alpha o = false -> tag_no_case o (k ++ s) = tag_no_case o (k' ++ s)).
Proof.
  induction o as [| b o IH]; intros k k' s [A S].
  - destruct k as [| c k], k' as [| c' k']; try discriminate.
    + split; [now left | reflexivity].
    + split; [right; exists c, k, c', k', tt; repeat split; assumption | discriminate].
  - destruct k as [| c k], k' as [| c' k']; try discriminate.
    + split; [now left | reflexivity].
    + cbn [app tag_no_case]. cbn [forallb] in *. apply andb_true_iff in A as [A1 A2]. injection S as S1 S2.
      rewrite <- S1. destruct (beq_spec (lower c) (lower b)) as [E |]; [| split; [now left | reflexivity]].
      rewrite <- (lower_alpha b), <- E, lower_alpha, A1. cbn. apply IH. now split.
Qed.

Section Name.
Context {F : features}.
Variables k k' s : bytes.
Hypothesis K : spelt k k'.
Definition ex {A} (p : parser A) : Prop := p (k ++ s) = p (k' ++ s).
Definition exr {A} (p : parser A) : Prop := eqr s (p (k ++ s)) (p (k' ++ s)).
(** Rejects letters *)
Definition rl {A} (p : parser A) : Prop := forall c r, is_alpha c = true -> p (c :: r) = RErr.

Lemma spelt_head c t c' t' : spelt (c :: t) (c' :: t') -> is_alpha c = true /\ is_alpha c' = true.
Proof.
  intros [A S]. injection S as S _. cbn in A. apply andb_true_iff in A as [A _]. split; [exact A |].
  now rewrite <- lower_alpha, <- S, lower_alpha.
Qed.
Lemma ex_exr {A} (p : parser A) : ex p -> exr p.
Proof. intros H. left. exact H. Qed.
Lemma ex_kw {A} o (f : unit -> parser A) : forallb is_alpha o = false -> ex (bind (tag_no_case o) f).
Proof. intros H. unfold ex, bind. now rewrite (proj2 (kw_case o k k' s K) H). Qed.
Lemma ex_kw_rl {A} o (f : unit -> parser A) : rl (f tt) -> ex (bind (tag_no_case o) f).
Proof.
  intros H. unfold ex, bind. destruct (proj1 (kw_case o k k' s K)) as [-> | (c & t & c' & t' & [] & P & -> & ->)]; [reflexivity |].
  apply spelt_head in P as [P P']. cbn [app]. now rewrite !H.
Qed.
Lemma exr_value {A} o (v : A) : exr (value v (tag_no_case o)).
Proof.
  unfold exr, value, bind. destruct (proj1 (kw_case o k k' s K)) as [-> | (c & t & c' & t' & [] & P & -> & ->)]; [now left |].
  right. exists c, t, c', t', v. repeat split; apply P.
Qed.
Lemma exr_gate {A} b (p : parser A) : exr p -> exr (gate b p).
Proof. intros H. destruct b; [exact H | now left]. Qed.
Lemma exr_pmap {A B} (f : A -> B) p : exr p -> exr (pmap f p).
Proof.
  unfold exr, pmap, bind. intros [-> | (c & t & c' & t' & a & P & -> & ->)]; [now left |].
  right. exists c, t, c', t', (f a). repeat split; apply P.
Qed.
Lemma exr_orp {A} (p q : parser A) : exr p -> exr q -> exr (orp p q).
Proof.
  unfold exr, orp. intros P Q. destruct P as [-> | (c & t & c' & t' & a & P & -> & ->)].
  - destruct (p (k' ++ s)); try (now left). exact Q.
  - right. exists c, t, c', t', a. repeat split; apply P.
Qed.
Lemma exr_alt {A} (l : list (parser A)) : Forall exr l -> exr (alt l).
Proof.
  intros H. induction H as [| p l P L IH]; [now left |]. destruct l as [| q l]; [exact P |]. now apply exr_orp.
Qed.
Lemma ex_opt_kw {A} o (f : option unit -> parser A) : forallb is_alpha o = false -> ex (f None) ->
  ex (bind (opt (tag_no_case o)) f).
Proof.
  intros H N. unfold ex, bind, opt. rewrite (proj2 (kw_case o k k' s K) H).
  destruct (tag_no_case o (k' ++ s)) as [r [] | | | |]; try reflexivity. exact N.
Qed.
Lemma rl_sp {A} (f : byte -> parser A) : rl (bind sp f).
Proof.
  intros c r H. unfold bind, sp, char, sat. destruct (beq_spec c bSP) as [-> |]; [discriminate | reflexivity].
Qed.
Lemma rl_bind {A B} (p : parser A) (f : A -> parser B) : rl p -> rl (bind p f).
Proof. intros H c r C. unfold bind. now rewrite H. Qed.
Lemma rl_opt {A B} (p : parser A) (f : option A -> parser B) : rl p -> rl (f None) -> rl (bind (opt p) f).
Proof. intros H H' c r C. unfold bind, opt. rewrite H by exact C. now apply H'. Qed.
Lemma rl_many1 {A} (p : parser A) : rl p -> rl (many1 p).
Proof. intros H. unfold many1. now apply rl_bind. Qed.
Ltac rlg := lazymatch goal with
  | |- rl (bind (opt _) _) => apply rl_opt; rlg
  | |- rl (bind sp _) => apply rl_sp
  | |- rl (bind _ _) => apply rl_bind; rlg
  | |- rl (pmap _ _) => apply rl_bind; rlg
  | |- rl (vec1 _) => apply rl_bind; rlg
  | |- rl (many1 _) => apply rl_many1; rlg
  end.
Ltac exg :=
  lazymatch goal with
  | |- Forall _ [] => apply Forall_nil
  | |- Forall _ (_ :: _) => apply Forall_cons; exg
  | |- exr (value _ (tag_no_case _)) => apply exr_value
  | |- exr (gate _ _) => apply exr_gate; exg
  | |- exr (pmap _ _) => apply exr_pmap; exg
  | |- exr (alt _) => apply exr_alt; exg
  | |- exr _ => apply ex_exr; exg
  | |- ex (bind (tag_no_case _) _) => first [apply ex_kw; reflexivity | apply ex_kw_rl; cbv beta; rlg | idtac]
  | |- ex (bind (opt (tag_no_case _)) _) => apply ex_opt_kw; [reflexivity | exg]
  | |- _ => idtac
  end.
Lemma exr_command_any : exr p_command_any.
Proof. unfold p_command_any, p_id. exg. Qed.
Lemma exr_command_auth : exr p_command_auth.
Proof.
  unfold p_command_auth, p_append, p_create, p_delete, p_examine, p_list, p_lsub, p_rename, p_select, p_status, p_subscribe,
    p_unsubscribe, p_idle, p_enable, p_compress, p_getquota, p_getquotaroot, p_setquota, p_setmetadata, p_getmetadata,
    p_namespace_command. exg.
Qed.
Lemma exr_command_nonauth : exr p_command_nonauth.
Proof. unfold p_command_nonauth, p_login, p_authenticate. exg. Qed.
Lemma exr_command_select : exr p_command_select.
Proof.
  unfold p_command_select, p_uid_expunge, p_copy, p_fetch, p_store, p_uid, p_search, p_sort, p_thread, p_move. exg.
Qed.
Lemma ex_command_body : ex p_command_body.
Proof.
  assert (H : exr (alt [p_command_any; p_command_auth; p_command_nonauth; p_command_select])).
  { apply exr_alt. repeat apply Forall_cons; [| | | | apply Forall_nil].
    - apply exr_command_any. - apply exr_command_auth. - apply exr_command_nonauth. - apply exr_command_select. }
  unfold ex, p_command_body, terminated, bind. destruct H as [-> | (c & t & c' & t' & a & P & -> & ->)]; [reflexivity |].
  apply spelt_head in P as [P P'].
  assert (C : rl crlf).
  { intros x r X. unfold crlf. destruct quirk_crlf_relaxed, x; try discriminate; reflexivity. }
  cbn [app]. now rewrite !C.
Qed.
End Name.

(** Sequence sets as text, for SeqProps.v. *)

From Verif Require Import Bytes BytesFacts Dec Features Nom Types SeqSet EncodeCtx Encode EncodeFacts FragFacts
  Valid RtFacts RtTac RtCore SeqSpec SeqFacts.
From Coq Require DecimalN DecimalFacts.
Open Scope N_scope.

Lemma dec_head n : n <> 0 -> starts_with (bs "0") (dec n) = false.
Proof.
  intros H. unfold dec. destruct (N.to_uint n) as [| u | u | u | u | u | u | u | u | u | u] eqn:E;
    try reflexivity.
  exfalso. pose proof (DecimalN.Unsigned.to_of (Decimal.D0 u)) as K. rewrite <- E in K at 1.
  rewrite DecimalN.Unsigned.of_to in K. rewrite E in K. unfold Decimal.unorm in K.
  destruct (Decimal.nzhead (Decimal.D0 u)) as [| v | v | v | v | v | v | v | v | v | v] eqn:Z; try discriminate.
  - injection K as ->. apply H. rewrite <- (DecimalN.Unsigned.of_to n), E. reflexivity.
  - now apply DecimalFacts.nzhead_nonzero in Z.
Qed.

Definition lacks (c : byte) (s : bytes) : Prop := ~ In c s.
Lemma split_none c s : lacks c s -> split_on c s = [s].
Proof.
  unfold lacks. induction s as [| x s IH]; intros H; cbn [split_on]; [reflexivity |].
  destruct (beq_spec x c); [subst; exfalso; apply H; now left |].
  rewrite IH; [reflexivity |]. intros K. apply H. now right.
Qed.
Lemma split_some c u v : lacks c u -> split_on c (u ++ c :: v) = u :: split_on c v.
Proof.
  unfold lacks. induction u as [| x u IH]; intros H; cbn [split_on app].
  - now rewrite beq_refl.
  - destruct (beq_spec x c); [subst; exfalso; apply H; now left |].
    rewrite IH; [reflexivity |]. intros K. apply H. now right.
Qed.
Lemma split_inv c s : (lacks c s /\ split_on c s = [s]) \/
  exists u v, s = u ++ c :: v /\ lacks c u /\ split_on c s = u :: split_on c v.
Proof.
  induction s as [| x s IH]; [left; split; [easy | reflexivity] |].
  destruct (beq_spec x c) as [-> | Hx].
  - right. exists [], s. split; [reflexivity |]. split; [easy |]. cbn [split_on]. now rewrite beq_refl.
  - destruct IH as [[L E] | (u & v & -> & L & E)].
    + left. assert (lacks c (x :: s)) by (intros [K | K]; [easy | now apply L]).
      split; [assumption | now apply split_none].
    + right. exists (x :: u), v. split; [reflexivity |].
      assert (lacks c (x :: u)) by (intros [K | K]; [easy | now apply L]).
      split; [assumption |]. change (x :: u ++ c :: v) with ((x :: u) ++ c :: v). now apply split_some.
Qed.

Lemma digits_lack c s : is_digit c = false -> forallb is_digit s = true -> lacks c s.
Proof. intros Hc H K. rewrite forallb_forall in H. apply H in K. congruence. Qed.
Lemma seq_number_lacks c s x : is_digit c = false -> c <> "*"%byte -> seq_number_text s x -> lacks c s.
Proof.
  intros Hc Hs. destruct x; cbn [seq_number_text].
  - intros (H & _). now apply digits_lack.
  - intros -> [K | []]. now apply Hs.
Qed.
Lemma lacks_app c a b : lacks c a -> lacks c b -> lacks c (a ++ b).
Proof. intros Ha Hb K. apply in_app_or in K as [K | K]; auto. Qed.
Lemma sequence_lacks s x : sequence_text s x -> lacks ","%byte s.
Proof.
  destruct x as [a | a b]; cbn [sequence_text].
  - apply seq_number_lacks; [reflexivity | discriminate].
  - intros (u & v & -> & Hu & Hv).
    apply lacks_app; [| apply lacks_app].
    + eapply seq_number_lacks; [reflexivity | discriminate | exact Hu].
    + now intros [K | []].
    + eapply seq_number_lacks; [reflexivity | discriminate | exact Hv].
Qed.

Lemma number_text_pos s n : number_text s n -> n <> 0.
Proof.
  intros (D & Ne & Z & -> & _). destruct s as [| c s]; [easy |].
  pose proof (dval_app_le [c] s) as L. cbn [app] in L.
  cbn [forallb] in D. apply andb_true_iff in D as [D _].
  assert (1 <= dval [c]); [| lia]. clear L. cbv [dval fold_left].
  assert (K : c <> "0"%byte) by (intros ->; discriminate Z). clear Z Ne.
  destruct c; try discriminate D; cbn; try lia. now exfalso.
Qed.
Lemma seq_or_uid_from_str_iff s x : lacks "+"%byte s ->
  seq_or_uid_from_str s = Some x <-> seq_number_text s x.
Proof.
  intros P. unfold seq_or_uid_from_str. destruct (beqs s (bs "*")) eqn:E.
  - apply beqs_eq in E. subst. split.
    + intros [= <-]. reflexivity.
    + destruct x as [n |]; [intros (D & _); discriminate D | reflexivity].
  - destruct (starts_with (bs "0") s) eqn:Z.
    + split; [discriminate |]. destruct x as [n |]; [intros (_ & _ & K & _); congruence |].
      intros ->. discriminate E.
    + assert (S : nz_u32_from_str s =
        match parse_max u32_max s with Some n => nz n | None => None end).
      { unfold nz_u32_from_str. destruct s as [| c [| d s]]; try reflexivity.
        destruct (beq_spec c "+"%byte) as [-> |]; [| reflexivity]. exfalso. apply P. now left. }
      rewrite S. unfold parse_max. split.
      * destruct (undec s) as [n |] eqn:U; [| discriminate].
        destruct (N.leb_spec n u32_max); [| discriminate]. unfold nz.
        destruct (N.eqb_spec n 0); [discriminate |]. intros [= <-].
        apply undec_some in U as (Ne & D & ->). repeat split; assumption.
      * destruct x as [n |]; [| intros ->; discriminate E]. intros T.
        pose proof (number_text_pos _ _ T) as Pn. destruct T as (D & Ne & _ & -> & L).
        rewrite (undec_digits s Ne D). apply N.leb_le in L. rewrite L. unfold nz.
        apply N.eqb_neq in Pn. now rewrite Pn.
Qed.
Lemma lacks_app_inv c a b : lacks c (a ++ b) -> lacks c a /\ lacks c b.
Proof. intros H. split; intros K; apply H; apply in_or_app; auto. Qed.
Lemma lacks_cons_inv c a b : lacks c (a :: b) -> lacks c b.
Proof. intros H K. apply H. now right. Qed.
Lemma sequence_from_str_iff s x : lacks "+"%byte s ->
  sequence_from_str s = Some x <-> sequence_text s x.
Proof.
  intros P. unfold sequence_from_str. split.
  - destruct (split_inv ":"%byte s) as [[L ->] | (u & v & -> & L & ->)].
    + destruct (seq_or_uid_from_str s) as [a |] eqn:E; [| discriminate]. intros [= <-].
      now apply seq_or_uid_from_str_iff in E.
    + apply lacks_app_inv in P as [Pu Pv]. apply lacks_cons_inv in Pv.
      destruct (split_inv ":"%byte v) as [[L' ->] | (u' & v' & -> & L' & ->)].
      * destruct (seq_or_uid_from_str u) as [a |] eqn:Ea; [| discriminate].
        destruct (seq_or_uid_from_str v) as [b |] eqn:Eb; [| discriminate]. intros [= <-].
        apply seq_or_uid_from_str_iff in Ea; [| assumption].
        apply seq_or_uid_from_str_iff in Eb; [| assumption].
        exists u, v. repeat split; assumption.
      * destruct (split_on ":"%byte v') eqn:E'; [| discriminate].
        destruct (split_inv ":"%byte v') as [[? K] | (? & ? & ? & ? & K)]; congruence.
  - destruct x as [a | a b]; cbn [sequence_text].
    + intros T. rewrite split_none.
      * apply seq_or_uid_from_str_iff in T; [| assumption]. now rewrite T.
      * eapply seq_number_lacks; [reflexivity | discriminate | exact T].
    + intros (u & v & -> & Ta & Tb).
      apply lacks_app_inv in P as [Pu Pv]. apply lacks_cons_inv in Pv.
      change (u ++ bs ":" ++ v) with (u ++ ":"%byte :: v).
      rewrite split_some by (eapply seq_number_lacks; [reflexivity | discriminate | exact Ta]).
      rewrite split_none by (eapply seq_number_lacks; [reflexivity | discriminate | exact Tb]).
      apply seq_or_uid_from_str_iff in Ta; [| assumption].
      apply seq_or_uid_from_str_iff in Tb; [| assumption]. now rewrite Ta, Tb.
Qed.
Lemma split_ind (c : byte) (Q : bytes -> Prop) :
  (forall s, lacks c s -> Q s) ->
  (forall u v, lacks c u -> Q v -> Q (u ++ c :: v)) -> forall s, Q s.
Proof.
  intros H0 H1 s. remember (length s) as k eqn:E. revert s E.
  induction k as [k IH] using lt_wf_ind. intros s ->.
  destruct (split_inv c s) as [[L _] | (u & v & -> & L & _)]; [now apply H0 |].
  apply H1; [exact L |]. eapply IH; [| reflexivity]. rewrite app_length. cbn. lia.
Qed.
Lemma sequence_opt_split s x : lacks "+"%byte s ->
  sequence_opt (map sequence_from_str (split_on ","%byte s)) = Some x <-> sequence_set_text s x.
Proof.
  revert x. induction s as [s L | u v L IH] using (split_ind ","%byte); intros x P.
  - rewrite split_none by assumption. cbn [map sequence_opt].
    destruct (sequence_from_str s) as [q |] eqn:E.
    + apply sequence_from_str_iff in E; [| assumption]. cbn [option_map]. split.
      * intros [= <-]. exact E.
      * destruct x as [| q' [| q'' x]]; cbn [sequence_set_text]; [easy | |].
        -- intros T. apply sequence_from_str_iff in T; [| assumption].
           apply sequence_from_str_iff in E; [| assumption]. congruence.
        -- intros (u & v & -> & _). exfalso. apply L. apply in_or_app. right. now left.
    + split; [discriminate |]. destruct x as [| q' [| q'' x]]; cbn [sequence_set_text]; [easy | |].
      * intros T. apply sequence_from_str_iff in T; [| assumption]. congruence.
      * intros (u & v & -> & _). exfalso. apply L. apply in_or_app. right. now left.
  - apply lacks_app_inv in P as [Pu Pv]. apply lacks_cons_inv in Pv.
    rewrite split_some by assumption. cbn [map sequence_opt].
    destruct (sequence_from_str u) as [q |] eqn:E.
    + apply sequence_from_str_iff in E; [| assumption]. split.
      * destruct (sequence_opt (map sequence_from_str (split_on ","%byte v))) as [x' |] eqn:E'; [| discriminate].
        cbn [option_map]. intros [= <-]. clear E'. pose proof (proj1 (IH x' Pv) eq_refl) as E'.
        destruct x' as [| q' x']; [destruct E' |]. exists u, v. split; [reflexivity |]. split; assumption.
      * destruct x as [| q' [| q'' x]]; [easy | |].
        -- cbn [sequence_set_text]. intros T. exfalso. apply sequence_lacks in T. apply T.
           apply in_or_app. right. now left.
        -- intros (u' & v' & Es & Tu & Tv).
           assert (Eu : u = u' /\ v = v').
           { pose proof (split_some _ _ v L) as S1. change (bs "," ++ v') with (","%byte :: v') in Es.
             pose proof (sequence_lacks _ _ Tu) as L'.
             clear -Es L L'. revert u' Es L'. induction u as [| a u IHu]; intros [| b u'] Es L'; cbn [app] in Es.
             - now injection Es as ->.
             - injection Es as <- _. exfalso. apply L'. now left.
             - injection Es as -> _. exfalso. apply L. now left.
             - injection Es as <- Es. destruct (IHu (fun K => L (or_intror K)) u' Es (fun K => L' (or_intror K))).
               now subst. }
           destruct Eu as [<- <-]. apply (IH (q'' :: x) Pv) in Tv. rewrite Tv. cbn [option_map].
           apply sequence_from_str_iff in E; [| assumption].
           apply sequence_from_str_iff in Tu; [| assumption]. congruence.
    + split; [discriminate |]. destruct x as [| q' [| q'' x]]; [easy | |].
      * cbn [sequence_set_text]. intros T. exfalso. apply sequence_lacks in T. apply T.
        apply in_or_app. right. now left.
      * intros (u' & v' & Es & Tu & Tv).
        assert (Eu : u = u').
        { change (bs "," ++ v') with (","%byte :: v') in Es.
          pose proof (sequence_lacks _ _ Tu) as L'.
          clear -Es L L'. revert u' Es L'. induction u as [| a u IHu]; intros [| b u'] Es L'; cbn [app] in Es.
          - reflexivity.
          - injection Es as <- _. exfalso. apply L'. now left.
          - injection Es as -> _. exfalso. apply L. now left.
          - injection Es as <- Es. f_equal. exact (IHu (fun K => L (or_intror K)) u' Es (fun K => L' (or_intror K))). }
        subst u'. apply sequence_from_str_iff in Tu; [| assumption]. congruence.
Qed.
Lemma sequence_set_from_str_iff s x : lacks "+"%byte s ->
  sequence_set_from_str s = Some x <-> sequence_set_text s x.
Proof.
  intros P. rewrite <- sequence_opt_split by assumption. unfold sequence_set_from_str.
  destruct (sequence_opt _) as [[| q l] |] eqn:E; try reflexivity. exfalso.
  destruct (split_inv ","%byte s) as [[_ K] | (u & v & _ & _ & K)]; rewrite K in E; cbn [map sequence_opt] in E.
  - destruct (sequence_from_str s); discriminate.
  - destruct (sequence_from_str u); [| discriminate]. destruct (sequence_opt _); discriminate.
Qed.

(** ** What is printed is read *)
Lemma seq_number_printed a : v_seq_or_uid a = true -> seq_number_text (dump (e_seq_or_uid a)) a.
Proof.
  destruct a as [n |]; cbn [v_seq_or_uid e_seq_or_uid]; [| reflexivity].
  intros H. unfold v_nz32 in H. apply andb_true_iff in H as [H1 H2].
  apply negb_true_iff, N.eqb_neq in H1. apply N.leb_le in H2. unfold e_num. rewrite dump_W. repeat split.
  - apply dec_digits.
  - apply dec_nonempty.
  - now apply dec_head.
  - now rewrite dval_dec.
  - exact H2.
Qed.
Lemma sequence_printed q : v_sequence q = true -> sequence_text (dump (e_seq_raw q)) q.
Proof.
  destruct q as [a | a b]; cbn [v_sequence e_seq_raw sequence_text].
  - apply seq_number_printed.
  - intros [Ha Hb]%andb_true_iff. rewrite !dump_app, dump_W.
    eexists _, _. split; [reflexivity |]. split; now apply seq_number_printed.
Qed.
Lemma sequence_set_printed s : vset s -> s <> [] ->
  sequence_set_text (dump (join (W (bs ",")) e_seq_raw s)) s.
Proof.
  intros V Ne. induction s as [| q [| r s] IH]; [easy | |].
  - inversion V; subst. cbn [join sequence_set_text]. now apply sequence_printed.
  - inversion V; subst. change (join (W (bs ",")) e_seq_raw (q :: r :: s))
      with (e_seq_raw q ++ W (bs ",") ++ join (W (bs ",")) e_seq_raw (r :: s)).
    rewrite !dump_app, dump_W. exists (dump (e_seq_raw q)), (dump (join (W (bs ",")) e_seq_raw (r :: s))).
    split; [reflexivity |]. split; [now apply sequence_printed |]. apply IH; [assumption | discriminate].
Qed.
Lemma seq_number_plus s x : seq_number_text s x -> lacks "+"%byte s.
Proof. apply seq_number_lacks; [reflexivity | discriminate]. Qed.
Lemma sequence_plus s x : sequence_text s x -> lacks "+"%byte s.
Proof.
  destruct x as [a | a b]; cbn [sequence_text]; [apply seq_number_plus |].
  intros (u & v & -> & Hu & Hv). apply lacks_app; [now apply seq_number_plus in Hu |].
  apply lacks_app; [now intros [K | []] | now apply seq_number_plus in Hv].
Qed.
Lemma sequence_set_plus s x : sequence_set_text s x -> lacks "+"%byte s.
Proof.
  revert s. induction x as [| q [| r x] IH]; intros s; [easy | |].
  - cbn [sequence_set_text]. apply sequence_plus.
  - intros (u & v & -> & Hu & Hv). apply lacks_app; [now apply sequence_plus in Hu |].
    apply lacks_app; [now intros [K | []] | now apply IH in Hv].
Qed.
Lemma norm_set_norm s : vset s -> norm_set s = normalize s.
Proof. apply norm_set_normalize. Qed.
Lemma from_str_printed {F : features} s : vset s -> s <> [] ->
  sequence_set_from_str (dump (e_sequence_set s)) =
  Some (if quirk_always_normalize_sequence_sets then normalize s else s).
Proof.
  intros V Ne. rewrite e_sequence_set_raw.
  assert (T : sequence_set_text (dump (join (W (bs ",")) e_seq_raw
      (if quirk_always_normalize_sequence_sets then norm_set s else s)))
      (if quirk_always_normalize_sequence_sets then normalize s else s)).
  { destruct quirk_always_normalize_sequence_sets.
    - rewrite norm_set_normalize by assumption. apply sequence_set_printed.
      + now apply normalize_valid.
      + now apply normalize_nonempty.
    - now apply sequence_set_printed. }
  apply sequence_set_from_str_iff; [| exact T]. now apply sequence_set_plus in T.
Qed.

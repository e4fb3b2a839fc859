(** C35: the numbers of a decoded message are the numbers of its text.

    NumberSpec.v lists the numbers of a message with the ranges of their types, and says what it
    means that they stand in a text. Dates are not numbers here (C34), nor are the lengths of
    literals, which are no part of the message (C18, C35_literal_length). *)

From Verif Require Import Bytes Features Nom Types Decode ValueSpec ValueFacts Grammar GrammarProps NumberSpec NumberFacts.

Theorem C35_command `{F : features} i r c : decode_command i = Decoded r c ->
  exists t, i = t ++ r /\ reads t (command_numbers c).
Proof.
  intros H. apply C44_command in H as (t & -> & G). exists t. split; [reflexivity |].
  apply shows_reads, has_command, G.
Qed.
Theorem C35_response `{F : features} i r x : decode_response i = Decoded r x ->
  exists t, i = t ++ r /\ reads t (response_numbers x).
Proof.
  intros H. apply C44_response in H as (t & -> & G). exists t. split; [reflexivity |].
  apply shows_reads, has_response, G.
Qed.
Theorem C35_greeting `{F : features} i r g : decode_greeting i = Decoded r g ->
  exists t, i = t ++ r /\ reads t (greeting_numbers g).
Proof.
  intros H. apply C44_greeting in H as (t & -> & G). exists t. split; [reflexivity |].
  apply shows_reads, has_greeting, G.
Qed.
(** In particular every number is in the range of its type. *)
Lemma reads_range `{F : features} t l : reads t l ->
  Forall (fun n => num_min n <= num_value n <= num_max n)%N l.
Proof. induction 1; constructor; cbn; auto. split; [apply N.le_0_l | discriminate]. Qed.
Print Assumptions C35_command.
Print Assumptions C35_response.
Print Assumptions C35_greeting.

Example C35_command_example : exists c, @decode_command all_features
    (bs "a UID FETCH 007:*,4294967295 (BODY[1.2.MIME]<0.18>) (CHANGEDSINCE 18446744073709551615)" ++ [bCR; bLF]) = Decoded [] c
  /\ command_numbers c = [nz32 7; nz32 4294967295; nz32 1; nz32 2; u32 0; nz32 18; nz64 18446744073709551615].
Proof. eexists. split; vm_compute; reflexivity. Qed.
Example C35_response_example : exists x, @decode_response all_features
    (bs "* 12 FETCH (UID 9 RFC822.SIZE 4294967295 BODY (""text"" ""plain"" NIL NIL NIL ""7bit"" -3 5))" ++ [bCR; bLF]) = Decoded [] x
  /\ response_numbers x = [nz32 12; nz32 9; u32 4294967295; u32 0; u32 5].
Proof. eexists. split; vm_compute; reflexivity. Qed.
Example C35_greeting_example : exists g, @decode_greeting all_features
    (bs "* OK [COPYUID 3 1,2:5 9] x" ++ [bCR; bLF]) = Decoded [] g
  /\ greeting_numbers g = [nz32 3; nz32 1; nz32 2; nz32 5; nz32 9].
Proof. eexists. split; vm_compute; reflexivity. Qed.
(** One more than the largest value is refused, not wrapped around. *)
Example C35_too_large_example :
  @decode_response all_features (bs "* 12 FETCH (RFC822.SIZE 4294967296)" ++ [bCR; bLF]) = Error RspFailed /\
  @decode_command all_features (bs "a SEARCH LARGER 4294967296" ++ [bCR; bLF]) = Error CmdFailed.
Proof. split; vm_compute; reflexivity. Qed.
(** Not every text shows a given number: a part of a run of digits does not count. *)
Example C35_reads_example `{F : features} : ~ reads (bs "123") [u32 12].
Proof.
  intros H. remember (bs "123") as t eqn:Et. remember [u32 12] as l eqn:El. destruct H as [| x d y n l X N D Y L R | x d y v l Q N D Y R]; [discriminate | |].
  - injection El as -> ->. 
    assert (forall k t, digits t k -> Forall is_a_digit t) as W.
    { induction 1; [constructor |]. apply Forall_app. split; [assumption | now repeat constructor]. }
    assert (Forall is_a_digit (x ++ d ++ y)) as A by (rewrite Et; repeat (constructor; [split; cbn; lia |]); constructor).
    apply Forall_app in A as [Ax A]. apply Forall_app in A as [_ Ay].
    destruct x as [| b x] using rev_ind.
    2: { apply X. exists x, b. split; [reflexivity |]. apply Forall_app in Ax as [_ Ax]. now inversion Ax. }
    destruct y as [| b y]. 2: { apply Y. exists b, y. split; [reflexivity |]. now inversion Ay. }
    cbn in Et. rewrite app_nil_r in Et. subst d.
    apply digits_spec in D as [_ D]. vm_compute in D. discriminate.
  - destruct x as [| ? [| ? [| ? [| ? ?]]]]; discriminate.
Qed.

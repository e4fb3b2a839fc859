(** C64: relays. A message that passes any number of relays (of different builds) is changed by each build
    at most once, takes at most a third more room however many relays there are, and is never rejected on
    the way. *)

From Verif Require Import Bytes BytesFacts Dec Features Nom Types SeqSet EncodeCtx Encode EncodeApi EncodeFacts Decode DecodeProps Valid
  RoundTripSpec RoundTripProps RtFacts OtherCode MoreSpec MoreProps GrowProps StrictSpec StrictFacts StrictProps ArbProps RelaySpec RelayFacts.
Open Scope nat_scope.

Lemma ext_trans F G H : same_extensions F G -> same_extensions G H -> same_extensions F H.
Proof. unfold same_extensions. intuition congruence. Qed.
Lemma ext_sym F G : same_extensions F G -> same_extensions G F.
Proof. unfold same_extensions. intuition congruence. Qed.
Lemma ext_refl F : same_extensions F F.
Proof. repeat split. Qed.

(** The quirks of writing of [J] are those of the relays [Fs]. *)
Definition collects (J : features) (Fs : list features) : Prop :=
  (forall G, In G Fs -> includes J G) /\ (writes_as_given Fs -> writes_as_given [J]).
Lemma collects_one F : collects F [F].
Proof. split; [| auto]. intros G [<- | []]. apply includes_refl. Qed.
Lemma collects_next J Fs G : collects J Fs -> collects (joined J G) (Fs ++ [G]).
Proof.
  intros [A B]. split.
  - intros H I. apply in_app_iff in I as [I | [<- | []]]; [apply j_keeps, A, I | apply j_includes].
  - intros W H [<- | []]. cbn.
    destruct (B (fun K I => W K (in_or_app _ _ _ (or_introl I))) J (or_introl eq_refl)) as [-> ->].
    destruct (W G (in_or_app _ _ _ (or_intror (in_eq G [])))) as [-> ->]. now split.
Qed.

(** ** A row of relays is like a single one *)
Section Row.
Context {E A : Type} (dec : features -> bytes -> outcome E A) (enc : features -> A -> list fragment) (w : features -> A -> A).
(** [ok F G]: [G] may follow [F]; [pass m]: the message [m] can be passed on *)
Context (ok : features -> features -> Prop) (pass : A -> Prop).
Hypothesis ok_refl : forall F, ok F F.
Hypothesis ok_joined : forall F G, ok F (joined F G).
Hypothesis ok_from : forall F G H, ok F H -> ok (joined F G) H.
Hypothesis ok_trans : forall F G H, ok F G -> ok G H -> ok F H.
Hypothesis step : forall J G i m, ok J G -> pass m -> dec J i = Decoded [] m ->
  dec G (dump_fragments (enc J m)) = Decoded [] (w J m) /\ enc G (w J m) = enc (joined J G) m /\
  dec (joined J G) i = Decoded [] m.
Notation relay_m := (fun F => relay (dec F) (enc F)).

Lemma row_rest Fs j o : relays relay_m Fs j o -> forall J Gs i m, (forall G, In G Fs -> ok J G) -> pass m -> collects J Gs ->
  dec J i = Decoded [] m -> j = dump_fragments (enc J m) ->
  exists K, ok J K /\ (forall H, ok J H -> ok K H) /\ collects K (Gs ++ Fs) /\ dec K i = Decoded [] m /\ o = dump_fragments (enc K m).
Proof.
  induction 1 as [G j o R | G Fs j k o R _ IH]; intros J Gs i m A0 P C D ->;
    destruct (step J G i m (A0 G (or_introl eq_refl)) P D) as (Q & X & D'); destruct R as (n & R & ->);
    rewrite Q in R; injection R as <-.
  - exists (joined J G). rewrite X. split; [apply ok_joined |]. split; [intros H; apply ok_from |].
    split; [now apply collects_next |]. now split.
  - rewrite X in IH. destruct (IH (joined J G) (Gs ++ [G]) i m) as (K & S & S' & C' & D2 & E2).
    + intros H I. apply ok_from, A0. now right.
    + exact P.
    + now apply collects_next.
    + exact D'.
    + reflexivity.
    + exists K. rewrite <- app_assoc in C'. split; [exact (ok_trans _ _ _ (ok_joined J G) S) |].
      split; [intros H O; apply S'; now apply ok_from |]. now split.
Qed.
Lemma row_once F Fs i o m : relays relay_m (F :: Fs) i o -> (forall G, In G Fs -> ok F G) -> pass m -> dec F i = Decoded [] m ->
  exists K, ok F K /\ (forall H, ok F H -> ok K H) /\ collects K (F :: Fs) /\ dec K i = Decoded [] m /\ o = dump_fragments (enc K m).
Proof.
  intros R O P D. inversion R as [G i' o' R1 | G Gs i' j o' R1 R2]; subst; destruct R1 as (n & R1 & ->);
    rewrite D in R1; injection R1 as <-.
  - exists F. split; [apply ok_refl |]. split; [auto |]. split; [apply collects_one |]. now split.
  - exact (row_rest Fs _ o R2 F [F] i m O P (collects_one F) D eq_refl).
Qed.
Lemma row_settled F Fs i o m G : relays relay_m (F :: Fs) i o -> (forall G, In G Fs -> ok F G) -> pass m -> dec F i = Decoded [] m ->
  In G (F :: Fs) -> relay_m G o o.
Proof.
  intros R O P D I. destruct (row_once F Fs i o m R O P D) as (K & S & S' & (C & _) & D' & ->).
  assert (OG : ok F G) by (destruct I as [<- | I]; [apply ok_refl | now apply O]).
  destruct (step K G i m (S' G OG) P D') as (Q & X & _). exists (w K m). split; [exact Q |].
  rewrite X. now rewrite (j_included K G (C G I)).
Qed.
Lemma row_passed F Fs i o m G : relays relay_m (F :: Fs) i o -> (forall G, In G Fs -> ok F G) -> pass m -> dec F i = Decoded [] m ->
  ok F G -> exists o', relay_m G o o'.
Proof.
  intros R O P D OG. destruct (row_once F Fs i o m R O P D) as (K & S & S' & _ & D' & ->).
  destruct (step K G i m (S' G OG) P D') as (Q & _ & _). eexists. exists (w K m). split; [exact Q | reflexivity].
Qed.
Lemma row_meaning F Fs i o m G : relays relay_m (F :: Fs) i o -> (forall G, In G Fs -> ok F G) -> pass m -> dec F i = Decoded [] m ->
  ok F G -> exists K, ok F K /\ (writes_as_given (F :: Fs) -> writes_as_given [K]) /\ dec K i = Decoded [] m /\ dec G o = Decoded [] (w K m).
Proof.
  intros R O P D OG. destruct (row_once F Fs i o m R O P D) as (K & S & S' & (_ & C) & D' & ->).
  destruct (step K G i m (S' G OG) P D') as (Q & _ & _). exists K. now split.
Qed.
End Row.

(** ** Commands *)
Lemma command_step J G i c : same_extensions J G -> True -> @decode_command J i = Decoded [] c ->
  @decode_command G (dump_fragments (@encode_command J c)) = Decoded [] (@w_command J c) /\
  @encode_command G (@w_command J c) = @encode_command (joined J G) c /\
  @decode_command (joined J G) i = Decoded [] c.
Proof.
  intros S _ D. split; [| split].
  - pose proof (C62_command_repaired J G i [] c S D []) as P. now rewrite app_nil_r in P.
  - unfold encode_command. f_equal. apply j_command. now apply decoded_command_valid in D.
  - exact (C62_command_meaning J (joined J G) i [] c (j_ext J G) (j_more J G) D).
Qed.
Lemma ext_from F G H : same_extensions F H -> same_extensions (joined F G) H.
Proof. intros S. exact (ext_trans _ _ _ (ext_sym _ _ (j_ext F G)) S). Qed.

(** A row of relays does what a single relay can do: there is a build [K] that reads the first relay's input
    as the first relay does, and sends what the last relay sends. *)
Theorem C64_command_once : forall F Fs i o c, alike F Fs -> @decode_command F i = Decoded [] c -> relays relay_command (F :: Fs) i o ->
  exists K, same_extensions F K /\ @decode_command K i = Decoded [] c /\ o = dump_fragments (@encode_command K c).
Proof.
  intros F Fs i o c A D R.
  destruct (row_once (@decode_command) (@encode_command) (@w_command) same_extensions (fun _ => True) ext_refl j_ext ext_from ext_trans command_step F Fs i o c R A I D) as (K & S & _ & _ & D' & E).
  exists K. split; [exact S |]. now split.
Qed.
(** A relay that was passed once would pass the message on unchanged from then on, whatever other relays
    follow. *)
Theorem C64_command_settled : forall F Fs i o c G, alike F Fs -> @decode_command F i = Decoded [] c -> relays relay_command (F :: Fs) i o ->
  In G (F :: Fs) -> relay_command G o o.
Proof.
  intros F Fs i o c G A D R X.
  exact (row_settled (@decode_command) (@encode_command) (@w_command) same_extensions (fun _ => True) ext_refl j_ext ext_from ext_trans command_step F Fs i o c G R A I D X).
Qed.
(** No relay rejects what another one has sent. *)
Theorem C64_command_passed : forall F Fs i o c G, alike F (G :: Fs) -> @decode_command F i = Decoded [] c -> relays relay_command (F :: Fs) i o ->
  exists o', relay_command G o o'.
Proof.
  intros F Fs i o c G A D R.
  exact (row_passed (@decode_command) (@encode_command) (@w_command) same_extensions (fun _ => True) ext_refl j_ext ext_from ext_trans command_step F Fs i o c G R (fun H X => A H (or_intror X)) I D (A G (or_introl eq_refl))).
Qed.
(** The last receiver reads what the first relay has read, but for the normal form of sequence sets and NIL
    for an empty ID list, if a relay writes them so. *)
Theorem C64_command_meaning : forall F Fs i o c G, alike F (G :: Fs) -> @decode_command F i = Decoded [] c -> relays relay_command (F :: Fs) i o ->
  exists K, @decode_command G o = Decoded [] (@w_command K c) /\ (writes_as_given (F :: Fs) -> @w_command K c = c).
Proof.
  intros F Fs i o c G A D R.
  destruct (row_meaning (@decode_command) (@encode_command) (@w_command) same_extensions (fun _ => True) ext_refl j_ext ext_from ext_trans command_step F Fs i o c G R (fun H X => A H (or_intror X)) I D (A G (or_introl eq_refl)))
    as (K & S & W & D' & Q). exists K. split; [exact Q |]. intros X. destruct (W X K (or_introl eq_refl)) as [W1 W2].
  exact (@w_command_off K c W1 W2).
Qed.
(** However many relays there are, the message takes at most a third more room. *)
Theorem C64_command_size : forall F Fs i o c, alike F Fs -> @decode_command F i = Decoded [] c -> relays relay_command (F :: Fs) i o ->
  3 * length o <= 4 * length i.
Proof.
  intros F Fs i o c A D R. destruct (C64_command_once F Fs i o c A D R) as (K & _ & D' & ->).
  pose proof (@C61_command K i [] c D') as L. cbn [length] in L. now rewrite Nat.sub_0_r in L.
Qed.

(** ** Responses and greetings *)
Definition follows (F G : features) : Prop := same_extensions F G /\ no_new_trailing_space F G.
Lemma follows_refl F : follows F F.
Proof. split; [apply ext_refl |]. now unfold no_new_trailing_space. Qed.
Lemma follows_joined F G : follows F (joined F G).
Proof. split; [apply j_ext |]. now unfold no_new_trailing_space. Qed.
Lemma follows_from F G H : follows F H -> follows (joined F G) H.
Proof. intros [S Z]. split; [now apply ext_from | exact Z]. Qed.
Lemma follows_trans F G H : follows F G -> follows G H -> follows F H.
Proof. intros [S Z] [S' Z']. split; [exact (ext_trans _ _ _ S S') |]. unfold no_new_trailing_space in *. auto. Qed.
Lemma response_step J G i r : follows J G -> has_modseq r = false -> @decode_response J i = Decoded [] r ->
  @decode_response G (dump_fragments (@encode_response J r)) = Decoded [] (@w_response J r) /\
  @encode_response G (@w_response J r) = @encode_response (joined J G) r /\
  @decode_response (joined J G) i = Decoded [] r.
Proof.
  intros [S Z] N D. split; [| split].
  - pose proof (C62_response_repaired J G i [] r S Z D N []) as P. now rewrite app_nil_r in P.
  - unfold encode_response. f_equal. apply (j_response J G (@other_read J)). now apply decoded_response_other in D.
  - apply (C62_response_meaning J (joined J G) i [] r (j_ext J G) (j_more J G)); [| exact D]. now unfold no_new_trailing_space.
Qed.

(** A row of relays does what a single relay can do: there is a build [K] that reads the first relay's input
    as the first relay does, and sends what the last relay sends. *)
Theorem C64_response_once : forall F Fs i o r, alike_spaces F Fs -> @decode_response F i = Decoded [] r -> has_modseq r = false -> relays relay_response (F :: Fs) i o ->
  exists K, same_extensions F K /\ @decode_response K i = Decoded [] r /\ o = dump_fragments (@encode_response K r).
Proof.
  intros F Fs i o r A D N R.
  destruct (row_once (@decode_response) (@encode_response) (@w_response) follows (fun r => has_modseq r = false) follows_refl follows_joined follows_from follows_trans response_step F Fs i o r R A N D) as (K & S & _ & _ & D' & E).
  exists K. split; [exact (proj1 S) |]. now split.
Qed.
(** A relay that was passed once would pass the message on unchanged from then on, whatever other relays
    follow. *)
Theorem C64_response_settled : forall F Fs i o r G, alike_spaces F Fs -> @decode_response F i = Decoded [] r -> has_modseq r = false -> relays relay_response (F :: Fs) i o ->
  In G (F :: Fs) -> relay_response G o o.
Proof.
  intros F Fs i o r G A D N R X.
  exact (row_settled (@decode_response) (@encode_response) (@w_response) follows (fun r => has_modseq r = false) follows_refl follows_joined follows_from follows_trans response_step F Fs i o r G R A N D X).
Qed.
(** No relay rejects what another one has sent. *)
Theorem C64_response_passed : forall F Fs i o r G, alike_spaces F (G :: Fs) -> @decode_response F i = Decoded [] r -> has_modseq r = false -> relays relay_response (F :: Fs) i o ->
  exists o', relay_response G o o'.
Proof.
  intros F Fs i o r G A D N R.
  exact (row_passed (@decode_response) (@encode_response) (@w_response) follows (fun r => has_modseq r = false) follows_refl follows_joined follows_from follows_trans response_step F Fs i o r G R (fun H X => A H (or_intror X)) N D (A G (or_introl eq_refl))).
Qed.
(** The last receiver reads what the first relay has read, but for the normal form of sequence sets and NIL
    for an empty ID list, if a relay writes them so. *)
Theorem C64_response_meaning : forall F Fs i o r G, alike_spaces F (G :: Fs) -> @decode_response F i = Decoded [] r -> has_modseq r = false -> relays relay_response (F :: Fs) i o ->
  exists K, @decode_response G o = Decoded [] (@w_response K r) /\ (writes_as_given (F :: Fs) -> @w_response K r = r).
Proof.
  intros F Fs i o r G A D N R.
  destruct (row_meaning (@decode_response) (@encode_response) (@w_response) follows (fun r => has_modseq r = false) follows_refl follows_joined follows_from follows_trans response_step F Fs i o r G R (fun H X => A H (or_intror X)) N D (A G (or_introl eq_refl)))
    as (K & S & W & D' & Q). exists K. split; [exact Q |]. intros X. destruct (W X K (or_introl eq_refl)) as [W1 W2].
  exact (@w_response_off K _ _ r (or_introl W1) (or_introl W2) (decoded_response_other K i [] r D')).
Qed.
(** However many relays there are, the message takes at most a third more room. *)
Theorem C64_response_size : forall F Fs i o r, alike_spaces F Fs -> @decode_response F i = Decoded [] r -> has_modseq r = false -> relays relay_response (F :: Fs) i o ->
  3 * length o <= 4 * length i + 13.
Proof.
  intros F Fs i o r A D N R. destruct (C64_response_once F Fs i o r A D N R) as (K & _ & D' & ->).
  pose proof (@C61_response K i [] r D') as L. cbn [length] in L. now rewrite Nat.sub_0_r in L.
Qed.

Lemma greeting_step J G i g : follows J G -> True -> @decode_greeting J i = Decoded [] g ->
  @decode_greeting G (dump_fragments (@encode_greeting J g)) = Decoded [] (@w_greeting J g) /\
  @encode_greeting G (@w_greeting J g) = @encode_greeting (joined J G) g /\
  @decode_greeting (joined J G) i = Decoded [] g.
Proof.
  intros [S Z] _ D. split; [| split].
  - pose proof (C62_greeting_repaired J G i [] g S Z D []) as P. now rewrite app_nil_r in P.
  - unfold encode_greeting. f_equal. apply (j_greeting J G (@other_read J)). now apply decoded_greeting_other in D.
  - apply (C62_greeting_meaning J (joined J G) i [] g (j_ext J G) (j_more J G)); [| exact D]. now unfold no_new_trailing_space.
Qed.

(** A row of relays does what a single relay can do: there is a build [K] that reads the first relay's input
    as the first relay does, and sends what the last relay sends. *)
Theorem C64_greeting_once : forall F Fs i o g, alike_spaces F Fs -> @decode_greeting F i = Decoded [] g -> relays relay_greeting (F :: Fs) i o ->
  exists K, same_extensions F K /\ @decode_greeting K i = Decoded [] g /\ o = dump_fragments (@encode_greeting K g).
Proof.
  intros F Fs i o g A D R.
  destruct (row_once (@decode_greeting) (@encode_greeting) (@w_greeting) follows (fun _ => True) follows_refl follows_joined follows_from follows_trans greeting_step F Fs i o g R A I D) as (K & S & _ & _ & D' & E).
  exists K. split; [exact (proj1 S) |]. now split.
Qed.
(** A relay that was passed once would pass the message on unchanged from then on, whatever other relays
    follow. *)
Theorem C64_greeting_settled : forall F Fs i o g G, alike_spaces F Fs -> @decode_greeting F i = Decoded [] g -> relays relay_greeting (F :: Fs) i o ->
  In G (F :: Fs) -> relay_greeting G o o.
Proof.
  intros F Fs i o g G A D R X.
  exact (row_settled (@decode_greeting) (@encode_greeting) (@w_greeting) follows (fun _ => True) follows_refl follows_joined follows_from follows_trans greeting_step F Fs i o g G R A I D X).
Qed.
(** No relay rejects what another one has sent. *)
Theorem C64_greeting_passed : forall F Fs i o g G, alike_spaces F (G :: Fs) -> @decode_greeting F i = Decoded [] g -> relays relay_greeting (F :: Fs) i o ->
  exists o', relay_greeting G o o'.
Proof.
  intros F Fs i o g G A D R.
  exact (row_passed (@decode_greeting) (@encode_greeting) (@w_greeting) follows (fun _ => True) follows_refl follows_joined follows_from follows_trans greeting_step F Fs i o g G R (fun H X => A H (or_intror X)) I D (A G (or_introl eq_refl))).
Qed.
(** The last receiver reads what the first relay has read, but for the normal form of sequence sets and NIL
    for an empty ID list, if a relay writes them so. *)
Theorem C64_greeting_meaning : forall F Fs i o g G, alike_spaces F (G :: Fs) -> @decode_greeting F i = Decoded [] g -> relays relay_greeting (F :: Fs) i o ->
  exists K, @decode_greeting G o = Decoded [] (@w_greeting K g) /\ (writes_as_given (F :: Fs) -> @w_greeting K g = g).
Proof.
  intros F Fs i o g G A D R.
  destruct (row_meaning (@decode_greeting) (@encode_greeting) (@w_greeting) follows (fun _ => True) follows_refl follows_joined follows_from follows_trans greeting_step F Fs i o g G R (fun H X => A H (or_intror X)) I D (A G (or_introl eq_refl)))
    as (K & S & W & D' & Q). exists K. split; [exact Q |]. intros X. destruct (W X K (or_introl eq_refl)) as [W1 W2].
  exact (@w_greeting_off K _ _ g (or_introl W1) (decoded_greeting_other K i [] g D')).
Qed.
(** However many relays there are, the message takes at most a third more room. *)
Theorem C64_greeting_size : forall F Fs i o g, alike_spaces F Fs -> @decode_greeting F i = Decoded [] g -> relays relay_greeting (F :: Fs) i o ->
  3 * length o <= 4 * length i + 7.
Proof.
  intros F Fs i o g A D R. destruct (C64_greeting_once F Fs i o g A D R) as (K & _ & D' & ->).
  pose proof (@C61_greeting K i [] g D') as L. cbn [length] in L. now rewrite Nat.sub_0_r in L.
Qed.

(** ** Cases that meet the hypotheses *)
Notation D := default_features.
Notation S := (strict default_features).
(** A relay without quirks only tidies the spelling, the next one also brings the sequence set into its
    normal form, the last one changes nothing any more. *)
Example C64_command_case : alike S [D; S] /\
  relays relay_command [S; D; S] (bs "a uid fetch 5,4:3 (flags)" ++ [bCR; bLF]) (bs "a UID FETCH 3:5 FLAGS" ++ [bCR; bLF]) /\
  relay_command S (bs "a uid fetch 5,4:3 (flags)" ++ [bCR; bLF]) (bs "a UID FETCH 5,4:3 FLAGS" ++ [bCR; bLF]).
Proof.
  assert (R : relay_command S (bs "a uid fetch 5,4:3 (flags)" ++ [bCR; bLF]) (bs "a UID FETCH 5,4:3 FLAGS" ++ [bCR; bLF])).
  { eexists. split; [vm_compute; reflexivity | vm_compute; reflexivity]. }
  split; [| split; [| exact R]].
  - intros G [<- | [<- | []]]; repeat split.
  - eapply relays_next; [exact R |]. apply relays_next with (j := bs "a UID FETCH 3:5 FLAGS" ++ [bCR; bLF]).
    + eexists. split; [vm_compute; reflexivity | vm_compute; reflexivity].
    + apply relays_one. eexists. split; [vm_compute; reflexivity | vm_compute; reflexivity].
Qed.
(** A line that a relay without quirks would have rejected *)
Example C64_response_case : alike_spaces D [S] /\ (exists r, @decode_response D (bs "* search 3 " ++ [bCR; bLF]) = Decoded [] r /\ has_modseq r = false) /\
  relays relay_response [D; S] (bs "* search 3 " ++ [bCR; bLF]) (bs "* SEARCH 3" ++ [bCR; bLF]).
Proof.
  split; [| split].
  - intros G [<- | []]. split; [repeat split | discriminate].
  - eexists. split; [vm_compute; reflexivity | reflexivity].
  - apply relays_next with (j := bs "* SEARCH 3" ++ [bCR; bLF]).
    + eexists. split; [vm_compute; reflexivity | vm_compute; reflexivity].
    + apply relays_one. eexists. split; [vm_compute; reflexivity | vm_compute; reflexivity].
Qed.
Example C64_greeting_case : relays relay_greeting [D; S; D] (bs "* ok hello " ++ [bCR; bLF]) (bs "* OK hello " ++ [bCR; bLF]).
Proof.
  apply relays_next with (j := bs "* OK hello " ++ [bCR; bLF]); [eexists; split; [vm_compute; reflexivity | vm_compute; reflexivity] |].
  apply relays_next with (j := bs "* OK hello " ++ [bCR; bLF]); [eexists; split; [vm_compute; reflexivity | vm_compute; reflexivity] |].
  apply relays_one. eexists; split; [vm_compute; reflexivity | vm_compute; reflexivity].
Qed.
(** With MODSEQ, which is written in a form that is not read (see C13), the second relay rejects the
    message: the condition is needed. *)
Theorem C64_response_passed_refuted : ~ forall F Fs i o r G, alike_spaces F (G :: Fs) -> @decode_response F i = Decoded [] r ->
  relays relay_response (F :: Fs) i o -> exists o', relay_response G o o'.
Proof.
  intros H. pose (F := all_features). pose (i := bs "* 1 FETCH (MODSEQ (5))" ++ [bCR; bLF]).
  destruct (H F [] i (bs "* 1 FETCH (MODSEQ 5)" ++ [bCR; bLF]) (RData (DFetch 1 [MDModSeq 5])) F) as (o & m & D & _).
  - intros G [<- | []]. apply follows_refl.
  - vm_compute. reflexivity.
  - apply relays_one. exists (RData (DFetch 1 [MDModSeq 5])). split; vm_compute; reflexivity.
  - unfold F in D. assert (X : @decode_response all_features (bs "* 1 FETCH (MODSEQ 5)" ++ [bCR; bLF]) = Error RspFailed) by (vm_compute; reflexivity).
    rewrite X in D. discriminate D.
Qed.
Print Assumptions C64_command_once.
Print Assumptions C64_command_settled.
Print Assumptions C64_command_passed.
Print Assumptions C64_command_meaning.
Print Assumptions C64_command_size.
Print Assumptions C64_response_once.
Print Assumptions C64_response_settled.
Print Assumptions C64_response_passed.
Print Assumptions C64_response_meaning.
Print Assumptions C64_response_size.
Print Assumptions C64_greeting_once.
Print Assumptions C64_greeting_settled.
Print Assumptions C64_greeting_passed.
Print Assumptions C64_greeting_meaning.
Print Assumptions C64_greeting_size.
Print Assumptions C64_response_passed_refuted.

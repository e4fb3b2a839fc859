(** Facts about the extensible keyword types and about [escape_byte_string]. *)

From Verif Require Import Bytes BytesFacts Features Types Utf8 Conv Ctors ValueSpec ValueFacts.
Open Scope nat_scope.

Lemma uppers_lowers s : uppers (lowers s) = uppers s.
Proof. unfold uppers, lowers. rewrite map_map. apply map_ext. intros b. apply upper_lower. Qed.
Lemma same_lowers s t : same_letters s t -> lowers s = lowers t.
Proof. apply same_letters_spec. Qed.
Lemma same_uppers s t : same_letters s t -> uppers s = uppers t.
Proof. intros H. rewrite <- (uppers_lowers s), <- (uppers_lowers t). f_equal. now apply same_lowers. Qed.
Lemma same_refl s : same_letters s s.
Proof. now apply same_letters_spec. Qed.

Lemma auth_back k s : auth_known k -> same_letters s (auth_mechanism_str k) ->
  auth_mechanism_from s = k.
Proof.
  intros K H. apply same_uppers in H. unfold auth_mechanism_from. rewrite H.
  destruct k; try contradiction; reflexivity.
Qed.
Lemma resource_back k s : resource_known k -> same_letters s (resource_str k) ->
  resource_from s = k.
Proof.
  intros K H. apply same_uppers in H. unfold resource_from. rewrite H.
  destruct k; try contradiction; reflexivity.
Qed.
Lemma sort_back k s : sort_known k -> same_letters s (sort_algorithm_str k) ->
  sort_algorithm_from s = k.
Proof.
  intros K H. apply same_lowers in H. unfold sort_algorithm_from. rewrite H.
  destruct k; try contradiction; reflexivity.
Qed.
Lemma threading_back k s : threading_known k -> same_letters s (threading_algorithm_str k) ->
  threading_algorithm_from s = k.
Proof.
  intros K H. apply same_lowers in H. unfold threading_algorithm_from. rewrite H.
  destruct k; try contradiction; reflexivity.
Qed.
Lemma enable_back `{features} k s : enable_known k -> same_letters s (capability_enable_str k) ->
  capability_enable_from s = k.
Proof.
  intros K H0. apply same_lowers in H0. unfold capability_enable_from. rewrite H0.
  destruct k as [| | | [|] |]; cbn in K; try contradiction;
    repeat match goal with |- context [if ?x && ?y then _ else _] =>
      let y' := eval vm_compute in y in change y with y' end;
    rewrite ?andb_false_r, ?andb_true_r; try rewrite K; reflexivity.
Qed.
Lemma lowers_tl x s l : lowers (x :: s) = l -> lowers s = tl l.
Proof. now intros <-. Qed.
Lemma flag_name_back k s : flag_name_known k -> same_letters (bBS :: s) (flag_name_attribute_str k) ->
  flag_name_attribute_from s = k.
Proof.
  intros K H. apply same_lowers in H. unfold flag_name_attribute_from.
  repeat apply lowers_tl in H; rewrite H; destruct k; try contradiction; reflexivity.
Qed.
Lemma flag_sys_back k s : flag_known k -> same_letters (bBS :: s) (flag_str k) -> flag_system s = k.
Proof.
  intros K H. apply same_lowers in H. unfold flag_system.
  repeat apply lowers_tl in H; rewrite H; destruct k; try contradiction; reflexivity.
Qed.
Lemma attribute_flag_sys_back k s : attribute_flag_known k ->
  same_letters (bBS :: bBS :: s) (attribute_flag_str k) -> attribute_flag_system s = k.
Proof.
  intros K H. apply same_lowers in H. unfold attribute_flag_system.
  repeat apply lowers_tl in H; rewrite H; destruct k; try contradiction; reflexivity.
Qed.

(** [Other] holds the text unchanged. *)
Ltac ifs := repeat match goal with |- context [if ?c then _ else _] => destruct c end; try discriminate.
Lemma auth_other a b : auth_mechanism_from a = AMOther b -> b = a.
Proof. unfold auth_mechanism_from. ifs. congruence. Qed.
Lemma resource_other a b : resource_from a = ROther b -> b = a.
Proof. unfold resource_from. ifs. congruence. Qed.
Lemma sort_other a b : sort_algorithm_from a = SAOther b -> b = a.
Proof. unfold sort_algorithm_from. ifs. congruence. Qed.
Lemma threading_other a b : threading_algorithm_from a = TAOther b -> b = a.
Proof. unfold threading_algorithm_from. ifs. congruence. Qed.
Lemma enable_other `{features} a b : capability_enable_from a = CEOther b -> b = a.
Proof. unfold capability_enable_from. ifs. congruence. Qed.
Lemma flag_ext a b : flag_system a = FExtension b -> b = a.
Proof. unfold flag_system. ifs. congruence. Qed.
Lemma attribute_flag_ext a b : attribute_flag_system a = AFExtension b -> b = a.
Proof. unfold attribute_flag_system. ifs. congruence. Qed.
Lemma flag_name_ext a b : flag_name_attribute_from a = FNExtension b -> b = a.
Proof. unfold flag_name_attribute_from. ifs. congruence. Qed.
Lemma capability_eq_other s b : capability_eq s = Some (CapOther b) -> False.
Proof.
  unfold capability_eq. destruct (split_once1 _ s) as [[l r] |]; [| discriminate].
  unfold compression_try_from. destruct (split_once (bs "res-") (lowers r)) as [[? ?] |]; ifs.
Qed.
Lemma capability_other `{features} a b : capability_from a = CapOther b -> b = a.
Proof.
  unfold capability_from. ifs. destruct (capability_eq a) eqn:E; [| congruence].
  intros ->. now apply capability_eq_other in E.
Qed.

Lemma lower_eqs b : beq (lower b) "="%byte = beq b "="%byte.
Proof. revert b. apply byte_eqb. vm_compute. reflexivity. Qed.
Lemma split_lowers s l r : split_once1 "="%byte (lowers s) = Some (l, r) ->
  exists l' r', split_once1 "="%byte s = Some (l', r') /\ lowers l' = l /\ lowers r' = r.
Proof.
  revert l r. induction s as [| b s IH]; intros l r; [discriminate |].
  change (lowers (b :: s)) with (lower b :: lowers s). cbn [split_once1]. rewrite lower_eqs.
  destruct (beq b "="%byte); [intros [= <- <-]; eauto |].
  destruct (split_once1 "="%byte (lowers s)) as [[l0 r0] |]; [| discriminate].
  intros [= <- <-]. destruct (IH _ _ eq_refl) as (l' & r' & -> & <- & <-). eauto.
Qed.
Lemma atom_ok_lowers s : atom_ok (lowers s) = atom_ok s.
Proof.
  assert (E : forall s, forallb is_atom_char (lowers s) = forallb is_atom_char s).
  { induction s0 as [| b s0 IH]; [reflexivity |]. cbn. f_equal; [| exact IH].
    revert b. apply byte_eqb. vm_compute. reflexivity. }
  destruct s as [| b s]; [reflexivity |]. apply (E (b :: s)).
Qed.
Definition fixed_name `{features} (l : bytes) : option capability :=
  if beqs l (bs "imap4rev1") then Some (CapImap4Rev1)
  else if beqs l (bs "logindisabled") then Some (CapLoginDisabled)
  else if beqs l (bs "starttls") && starttls then Some (CapStartTls)
  else if beqs l (bs "idle") then Some (CapIdle)
  else if beqs l (bs "mailbox-referrals") && ext_mailbox_referrals then Some (CapMailboxReferrals)
  else if beqs l (bs "login-referrals") && ext_login_referrals then Some (CapLoginReferrals)
  else if beqs l (bs "sasl-ir") then Some (CapSaslIr)
  else if beqs l (bs "enable") then Some (CapEnable)
  else if beqs l (bs "quota") then Some (CapQuota)
  else if beqs l (bs "quotaset") then Some (CapQuotaSet)
  else if beqs l (bs "literal+") then Some (CapLiteralPlus)
  else if beqs l (bs "literal-") then Some (CapLiteralMinus)
  else if beqs l (bs "move") then Some (CapMove)
  else if beqs l (bs "id") && ext_id then Some (CapId)
  else if beqs l (bs "sort") then Some (CapSort None)
  else if beqs l (bs "metadata") && ext_metadata then Some (CapMetadata)
  else if beqs l (bs "metadata-server") && ext_metadata then Some (CapMetadataServer)
  else if beqs l (bs "binary") then Some (CapBinary)
  else if beqs l (bs "unselect") then Some (CapUnselect)
  else if beqs l (bs "condstore") && ext_condstore_qresync then Some (CapCondStore)
  else if beqs l (bs "qresync") && ext_condstore_qresync then Some (CapQResync)
  else if beqs l (bs "uidplus") then Some (CapUidPlus)
  else if beqs l (bs "utf8=accept") && ext_utf8 then Some (CapUtf8 Utf8Accept)
  else if beqs l (bs "utf8=only") && ext_utf8 then Some (CapUtf8 Utf8Only)
  else None.
Lemma step1 {A} (b : bool) (c d e : A) o : d = match o with Some x => x | None => e end ->
  (if b then c else d) = match (if b then Some c else o) with Some x => x | None => e end.
Proof. now destruct b. Qed.
Lemma step2 {A} (f b : bool) (c d e : A) o : d = match o with Some x => x | None => e end ->
  (if f && b then c else d) = match (if b && f then Some c else o) with Some x => x | None => e end.
Proof. now destruct f, b. Qed.
Lemma capability_fixed `{features} s : capability_from s =
  match fixed_name (lowers s) with
  | Some c => c
  | None => match capability_eq s with Some c => c | None => CapOther s end
  end.
Proof.
  unfold capability_from, fixed_name.
  repeat (apply step1 || apply step2). reflexivity.
Qed.
Ltac cap_split Q :=
  let l' := fresh "l" in let r' := fresh "r" in let E := fresh "E" in let El := fresh "El" in
  let Ea := fresh "Ea" in
  edestruct Q as (l' & r' & E & El & Er & Ea);
  [| unfold capability_eq; rewrite E, El, ?Ea]; [vm_compute; reflexivity |].
Lemma capability_back `{features} k s : capability_known k -> same_letters s (capability_str k) ->
  capability_from s = k.
Proof.
  intros K S0. apply same_lowers in S0.
  assert (Q : forall l r, split_once1 "="%byte (lowers (capability_str k)) = Some (l, r) ->
    exists l' r', split_once1 "="%byte s = Some (l', r') /\ lowers l' = l /\ lowers r' = r /\
      atom_ok r' = atom_ok r).
  { intros l r E. rewrite <- S0 in E. destruct (split_lowers _ _ _ E) as (l' & r' & E1 & E2 & E3).
    exists l', r'. repeat split; auto. now rewrite <- E3, atom_ok_lowers. }
  assert (Fx : forall c, fixed_name (lowers (capability_str k)) = Some c -> capability_from s = c).
  { intros c E. now rewrite capability_fixed, S0, E. }
  assert (Eq : forall c, fixed_name (lowers (capability_str k)) = None -> capability_eq s = Some c ->
    capability_from s = c).
  { intros c E E'. now rewrite capability_fixed, S0, E, E'. }
  clear S0.
  destruct k as [| m | | | | | | | | [] | | r | | | | | | | [a |] | a | | | | | | | | [|] |];
    cbn in K; try contradiction;
    try (apply Fx; clear -K; destruct H; cbn in K; try subst; vm_compute; reflexivity).
  - destruct m; try contradiction;
    (apply Eq; [vm_compute; reflexivity |]; cap_split Q;
     match goal with |- _ = Some (CapAuth ?m) => rewrite (auth_back m) end;
     [vm_compute; reflexivity | exact I | apply same_letters_spec; rewrite Er; vm_compute; reflexivity]).
  - apply Eq; [vm_compute; reflexivity |]; cap_split Q. unfold compression_try_from. rewrite Er.
    vm_compute. reflexivity.
  - destruct r; try contradiction;
    (apply Eq; [vm_compute; reflexivity |]; cap_split Q; rewrite Er; vm_compute; reflexivity).
  - destruct a; try contradiction;
    (apply Eq; [vm_compute; reflexivity |]; cap_split Q; unfold sort_algorithm_from; rewrite Er;
     vm_compute; reflexivity).
  - destruct a; try contradiction;
    (apply Eq; [vm_compute; reflexivity |]; cap_split Q; unfold threading_algorithm_from; rewrite Er;
     vm_compute; reflexivity).
Qed.

(** ** [escape_byte_string] *)
Definition clash (a b : byte) : bool :=
  negb (beq a b) && (starts_with (escape_byte a) (escape_byte b)).
Lemma no_clash a b : clash a b = false.
Proof.
  assert (H : forallb (fun a => forallb (fun b => negb (clash a b)) all_bytes) all_bytes = true)
    by (vm_compute; reflexivity).
  pose proof (byte_forall _ H a) as Ha. cbv beta in Ha.
  apply negb_true_iff. exact (byte_forall (fun b => negb (clash a b)) Ha b).
Qed.
Lemma app_prefix (u v x y : bytes) : u ++ x = v ++ y -> (length u <= length v)%nat ->
  exists t, v = u ++ t /\ x = t ++ y.
Proof.
  revert v. induction u as [| a u IH]; intros v E L; [exists v; auto |].
  destruct v as [| b v]; [cbn in L; lia |]. cbn in E. injection E as -> E.
  destruct (IH v E) as (t & -> & ->); [cbn in L; lia |]. exists t. auto.
Qed.
Lemma starts_app u t : starts_with u (u ++ t) = true.
Proof.
  unfold starts_with. rewrite firstn_app, Nat.sub_diag, firstn_O, app_nil_r, firstn_all.
  apply beqs_refl.
Qed.
Lemma escape_cons_inj a b x y : escape_byte a ++ x = escape_byte b ++ y -> a = b /\ x = y.
Proof.
  intros E. assert (A : a = b).
  { destruct (Nat.le_ge_cases (length (escape_byte a)) (length (escape_byte b))) as [L | L].
    - destruct (app_prefix _ _ _ _ E L) as (t & Eb & _). pose proof (no_clash a b) as C.
      unfold clash in C. rewrite Eb, starts_app, andb_true_r in C.
      apply negb_false_iff in C. now apply beq_eq.
    - destruct (app_prefix _ _ _ _ (eq_sym E) L) as (t & Eb & _). pose proof (no_clash b a) as C.
      unfold clash in C. rewrite Eb, starts_app, andb_true_r in C.
      apply negb_false_iff in C. now apply beq_eq in C. }
  subst b. split; [reflexivity | now apply app_inv_head in E].
Qed.
Lemma escape_nonempty b : escape_byte b <> [].
Proof.
  assert (H : forall b, negb (beqs (escape_byte b) []) = true)
    by (apply byte_forall; vm_compute; reflexivity).
  specialize (H b). now destruct (escape_byte b).
Qed.
Lemma escape_inj s t : escape_byte_string s = escape_byte_string t -> s = t.
Proof.
  unfold escape_byte_string. revert t. induction s as [| a s IH]; intros [| b t]; cbn [map concat]; intros E.
  - reflexivity.
  - symmetry in E. apply app_eq_nil in E as [E _]. now apply escape_nonempty in E.
  - apply app_eq_nil in E as [E _]. now apply escape_nonempty in E.
  - apply escape_cons_inj in E as [-> E]. f_equal. auto.
Qed.
Lemma escape_printable s : Forall (fun b => (0x20 <= bN b <= 0x7e)%N) (escape_byte_string s).
Proof.
  unfold escape_byte_string. induction s as [| b s IH]; cbn [map concat]; [constructor |].
  apply Forall_app. split; [| exact IH].
  assert (H : forall b, forallb (inb 0x20 0x7e) (escape_byte b) = true)
    by (apply byte_forall; vm_compute; reflexivity).
  specialize (H b). rewrite forallb_forall in H. apply Forall_forall. intros c I.
  now apply inb_spec, H.
Qed.

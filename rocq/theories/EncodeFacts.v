(** Facts about the encoder's operation lists. *)

From Verif Require Import Bytes Nom Dec BytesFacts EncodeCtx.

Lemma dump_app a b : dump (a ++ b) = dump a ++ dump b.
Proof. unfold dump. apply flat_map_app. Qed.
Lemma dump_W x : dump (W x) = x.
Proof. induction x as [|b x IH]; [reflexivity|]. cbn. f_equal. exact IH. Qed.
Lemma dump_B b l : dump (B b :: l) = b :: dump l.
Proof. reflexivity. Qed.
Lemma dump_nil : dump [] = [].
Proof. reflexivity. Qed.
Lemma W_app a b : W (a ++ b) = W a ++ W b.
Proof. apply map_app. Qed.

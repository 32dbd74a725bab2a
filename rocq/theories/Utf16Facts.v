(** Utf16Facts.v -- decoding UTF-16 output gives back the text. *)
From Coq Require Import ZifyBool ZifyNat ZifyN.
From Verif Require Import Base Utf EmitChars.

Ltac Zify.zify_post_hook ::= Z.div_mod_to_equations.
Lemma u16s_bytes be u r : u < 65536 -> u16s be (u16_bytes be u ++ r) = u :: u16s be r.
Proof. intros H. destruct be; cbn [u16_bytes app u16s]; f_equal; lia. Qed.
Lemma u16s_encode be us : Forall (fun u => u < 65536) us -> u16s be (flat_map (u16_bytes be) us) = us.
Proof. induction 1 as [|u us Hu H IH]; [reflexivity|]. cbn [flat_map]. rewrite u16s_bytes by exact Hu. rewrite IH. reflexivity. Qed.
Lemma units_small t : typed_str t -> Forall (fun u => u < 65536) (flat_map encode_utf16_char t).
Proof.
  induction 1 as [|c t Hc H IH]; [constructor|]. cbn [flat_map]. apply Forall_app. split; [|exact IH].
  unfold encode_utf16_char, scalar_value in *. destruct (c <? 65536) eqn:E; repeat constructor; lia.
Qed.
Lemma decode_encode t : typed_str t -> decode_utf16_prefix (flat_map encode_utf16_char t) = t.
Proof.
  induction 1 as [|c t Hc H IH]; [reflexivity|]. cbn [flat_map]. unfold encode_utf16_char at 1. unfold scalar_value in Hc. destruct (c <? 65536) eqn:E.
  - cbn [app decode_utf16_prefix]. replace (is_surrogate c) with false by (unfold is_surrogate; lia). cbn [negb]. rewrite IH. reflexivity.
  - cbn [app decode_utf16_prefix].
    set (a := 55296 + (c - 65536) / 1024). set (b := 56320 + (c - 65536) mod 1024).
    replace (is_surrogate a) with true by (unfold is_surrogate, a; lia). cbn [negb].
    replace (is_low_surrogate a) with false by (unfold is_low_surrogate, a; lia).
    replace (is_low_surrogate b) with true by (unfold is_low_surrogate, b; lia). rewrite IH. f_equal. unfold a, b. lia.
Qed.
Ltac Zify.zify_post_hook ::= idtac.
Lemma utf16_decodes be t : typed_str t -> decode_utf16_prefix (u16s be (encode_utf16 be t)) = t.
Proof. intros H. unfold encode_utf16. rewrite u16s_encode by (apply units_small, H). apply decode_encode, H. Qed.

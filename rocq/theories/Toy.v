(** Concrete instances of the oracles, used only to show that the hypotheses of the theorems can be met. *)
From Verif Require Import Outcome Bits ListFacts Codecs CodecProofs Encoding EncodingProofs.
Open Scope Z_scope.

(** A rate-1/2 repetition "code" with the sizes of the real ones: the message twice; decoding returns the first copy. *)
Definition toy_ldpc : ldpc := {|
  ldpc_copy_encode := fun _ m => m ++ m;
  ldpc_decode_bf := fun _ r => r
|}.

Lemma toy_shape : ldpc_shape toy_ldpc.
Proof.
  split.
  - intros c m Hm Hl. cbn. split; [rewrite app_length, Hl; destruct c; reflexivity|]. apply Forall_app; split; exact Hm.
  - intros c r _ Hl. cbn. rewrite Hl. destruct c; cbn; lia.
Qed.
Lemma toy_decodes : ldpc_decodes toy_ldpc.
Proof.
  intros c m Hm Hl. cbn. rewrite <- Hl, firstn_app, firstn_all, Nat.sub_diag, firstn_O, app_nil_r. reflexivity.
Qed.

(** Assembly of the integer-code lemmas into the form of the property theorems. *)
From Coq Require Import List NArith ZArith Lia Arith Bool Sorted.
From Coq Require Import ZifyBool ZifyNat ZifyN.
From Verif Require Import Base ModelUtils ProofUtils1 ProofUtils2.
Import ListNotations.
Open Scope N_scope.
Ltac Zify.zify_post_hook ::= Z.div_mod_to_equations.

Lemma ungroup_bound : forall l, ungroup l < 2 ^ (7 * N.of_nat (length l)).
Proof.
  induction l as [|b l IH]; [simpl; lia|].
  cbn [ungroup length].
  replace (7 * N.of_nat (S (length l))) with (7 + 7 * N.of_nat (length l)) by lia.
  rewrite N.pow_add_r. change (2 ^ 7) with 128.
  pose proof (N.mod_lt b 128 ltac:(lia)). nia.
Qed.

Lemma pack_all : forall v, v < 2 ^ 56 ->
  exists packed bytes,
    packInteger v = Ok (packed, bytes) /\
    unpackInteger packed = Ok v /\
    (1 <= bytes <= 8)%nat /\
    v < 128 ^ N.of_nat bytes /\ (bytes = 1%nat \/ 128 ^ N.of_nat (bytes - 1) <= v) /\
    length (lowBytes bytes packed) = bytes /\
    Forall (fun b => b < 256) (lowBytes bytes packed) /\
    writePackedInteger packed = Ok (lowBytes bytes packed) /\
    forall rest,
      readPackedInteger (bytes_bits (lowBytes bytes packed) ++ rest) = Ok (v, bytes, rest) /\
      readStillPacked (bytes_bits (lowBytes bytes packed) ++ rest) = Ok (packed, rest).
Proof.
  intros v Hv. exists (leval (groups 7 v)), (length (groups 7 v)).
  pose proof (groups_wf 7 v Hv) as W. pose proof (wf_groups_bytes _ W) as B.
  rewrite lowBytes_leval by exact B.
  pose proof (groups_length 7 v) as L.
  pose proof (ungroup_groups 7 v Hv) as U. pose proof (ungroup_bound (groups 7 v)) as UB1.
  rewrite U in UB1.
  assert (P : forall k, 128 ^ k = 2 ^ (7 * k)) by (intros; rewrite N.pow_mul_r; reflexivity).
  rewrite !P.
  split; [apply packInteger_spec; exact Hv|].
  split; [apply unpackInteger_spec; exact Hv|].
  split; [lia|]. split; [exact UB1|].
  split; [apply groups_minimal|].
  split; [reflexivity|]. split; [exact B|].
  split; [apply writePackedInteger_spec; exact Hv|].
  intros rest. split; [apply readPackedInteger_spec|apply readStillPacked_spec]; exact Hv.
Qed.

Lemma packRev_all : forall v, v < 2 ^ 56 ->
  exists packed bytes,
    packInteger v = Ok (packed, bytes) /\
    length (pushBitsRev packed (8 * bytes)) = (8 * bytes)%nat /\
    forall rest, readPackedIntegerRev (pushBitsRev packed (8 * bytes) ++ rest) = Ok (v, bytes, rest).
Proof.
  intros v Hv. exists (leval (groups 7 v)), (length (groups 7 v)).
  pose proof (groups_wf 7 v Hv) as W. pose proof (wf_groups_bytes _ W) as B.
  split; [apply packInteger_spec; exact Hv|].
  split.
  - generalize (8 * length (groups 7 v))%nat (leval (groups 7 v)).
    induction n; intros m; simpl; auto.
  - intros rest. rewrite pushBitsRev_leval by exact B. apply readPackedIntegerRev_spec. exact Hv.
Qed.

Lemma direct_all : forall v, 0 < v -> v < 2 ^ 64 ->
  exists bytes,
    packAndWriteInteger v = Ok bytes /\ (1 <= length bytes <= 10)%nat /\
    Forall (fun b => b < 256) bytes /\
    forall rest, readAndUnpackInteger (bytes ++ rest) = Ok (v, length bytes).
Proof.
  intros v H0 Hv.
  assert (Hb : v < 2 ^ (7 * N.of_nat 10)) by (change (2 ^ (7 * N.of_nat 10)) with (2 ^ 70); lia).
  exists (groups 9 v). split; [apply (packAndWrite_spec 9); assumption|].
  pose proof (groups_length 9 v). split; [lia|].
  assert (W : wf_groups (groups 9 v)) by (apply groups_wf; assumption).
  split; [apply (wf_groups_bytes _ W)|].
  intros rest. unfold readAndUnpackInteger.
  pose proof (ungroup_groups 9 v Hb) as U.
  rewrite readAndUnpackLoop_spec; auto; rewrite ?U.
  - cbn -[ungroup]. rewrite N.mul_1_r. reflexivity.
  - cbn. lia.
  - lia.
  - change (2 ^ N.of_nat (7 * 0)) with 1. unfold two64. lia.
Qed.

Lemma interp_all : forall l mx, l <> [] -> StronglySorted N.lt l -> Forall (fun x => x <= mx) l ->
  mx < 2 ^ 30 ->
  exists bits, binaryInterpolativeCode l 0 mx = Ok bits /\
    forall rest, binaryInterpolativeDecode (bits ++ rest) 0 mx (length l) = Ok (l, length bits, rest).
Proof.
  intros l mx Hne Hs Hb Hm. apply interp_spec; auto; try lia.
  eapply Forall_impl; [|exact Hb]. simpl. intros. lia.
Qed.

Lemma logFloor_def : forall n, 0 < n < 2 ^ 64 ->
  exists k, logFloor n = Ok k /\ 2 ^ k <= n < 2 ^ (k + 1).
Proof.
  intros n H. exists (N.log2 n). split; [apply logFloor_spec; unfold two64; lia|].
  rewrite N.add_1_r. apply N.log2_spec. lia.
Qed.

Lemma portable_same : forall n, 0 < n < 2 ^ 64 -> logFloorPortable n = logFloor n.
Proof.
  intros n H. rewrite logFloor_spec by (unfold two64; lia). unfold logFloorPortable.
  destruct (N.eqb_spec n 0); [lia|].
  rewrite logFloorLoop_spec; [f_equal; lia|lia|].
  assert (N.log2 n < 64) by (apply N.log2_lt_pow2; lia). lia.
Qed.

Lemma logCeiling_def : forall n, 0 < n < 2 ^ 31 ->
  exists k, logCeiling n = Ok k /\ n <= 2 ^ k /\ forall j, n <= 2 ^ j -> k <= j.
Proof.
  intros n H. exists (N.log2_up n). split; [apply logCeiling_spec; lia|].
  destruct (N.eq_dec n 1) as [->|NE]; [change (N.log2_up 1) with 0; split; [simpl; lia|intros; apply N.le_0_l]|].
  split.
  - apply N.log2_up_spec. lia.
  - intros j Hj. apply N.log2_up_le_pow2; lia.
Qed.

(** The memory version of readPackedInteger (C56). *)
From Coq Require Import List NArith ZArith Lia Arith Bool.
From Coq Require Import ZifyBool ZifyNat ZifyN.
From Verif Require Import Base ModelUtils ProofUtils1 ModelPackMem.
Import ListNotations.
Open Scope N_scope.

Lemma readMem_loop : forall l, wf_groups l -> forall i packed rest, (i + length l <= 8)%nat -> packed < 256 ^ N.of_nat i ->
  readPackedMemLoop (l ++ rest) i packed = Ok (packed + 256 ^ N.of_nat i * leval l).
Proof.
  assert (SM : forall b i, b < 256 -> (i < 8)%nat -> N.shiftl b (N.of_nat (i * 8)) mod two64 = N.shiftl b (N.of_nat (i * 8))).
  { intros b i Hb Hi. apply N.mod_small. rewrite N.shiftl_mul_pow2. unfold two64. replace 64 with (8 + 56) by reflexivity. rewrite N.pow_add_r.
    assert (2 ^ N.of_nat (i * 8) <= 2 ^ 56) by (apply N.pow_le_mono_r; lia). change (2 ^ 8) with 256. nia. }
  intros l W. induction W as [b Hb|b l Hb Hl IH]; intros i packed rest Hi Hp; cbn [length] in Hi; cbn [app readPackedMemLoop].
  - destruct (Nat.leb_spec 8 i); [lia|]. rewrite SM by lia. rewrite land_128, (N.mod_small b 256) by lia. destruct (N.ltb_spec b 128); [|lia].
    rewrite lor_add by (rewrite <- pow256; assumption). rewrite <- pow256. cbn [leval]. f_equal. lia.
  - destruct (Nat.leb_spec 8 i); [lia|]. rewrite SM by lia. rewrite land_128, (N.mod_small b 256) by lia. destruct (N.ltb_spec b 128); [lia|].
    rewrite lor_add by (rewrite <- pow256; assumption). rewrite <- pow256. rewrite IH; try lia.
    + cbn [leval]. rewrite Nat2N.inj_succ, N.pow_succ_r'. f_equal. lia.
    + rewrite Nat2N.inj_succ, N.pow_succ_r'. nia.
Qed.
Lemma readMem_round_trip : forall v rest, v < 2 ^ 56 -> exists packed bytes l, packInteger v = Ok (packed, bytes) /\ writePackedInteger packed = Ok l /\ length l = bytes /\
  readPackedMem (l ++ rest) = Ok packed /\ unpackInteger packed = Ok v.
Proof.
  intros v rest Hv. exists (leval (groups 7 v)), (length (groups 7 v)), (groups 7 v). split; [apply packInteger_spec; exact Hv|]. split; [apply writePackedInteger_spec; exact Hv|].
  split; [reflexivity|]. split; [|apply unpackInteger_spec; exact Hv]. unfold readPackedMem. pose proof (groups_length 7 v).
  rewrite readMem_loop; [|apply groups_wf; exact Hv|lia|simpl; lia]. cbn [bind]. change (256 ^ N.of_nat 0) with 1. rewrite N.add_0_l, N.mul_1_l.
  destruct (N.eqb_spec (leval (groups 7 v)) 128) as [E|]; [|reflexivity]. exfalso. apply (groups_not_end v Hv E).
Qed.
Lemma readMem_end : forall rest, readPackedMem (128 :: 0 :: rest) = Ok (2 ^ 63) /\ writePackedInteger (2 ^ 63) = Ok [0; 0; 0; 0; 0; 0; 0; 128] /\
  readPackedMem ([0; 0; 0; 0; 0; 0; 0; 128] ++ rest) = Ok 0.
Proof. intros rest. repeat split; reflexivity. Qed.
Lemma readMem_long : forall l b0 b1 b2 b3 b4 b5 b6 b7, Forall (fun b => 128 <= b < 256) [b0; b1; b2; b3; b4; b5; b6; b7] -> readPackedMem ([b0; b1; b2; b3; b4; b5; b6; b7] ++ l) = UB.
Proof.
  intros l b0 b1 b2 b3 b4 b5 b6 b7 H. unfold readPackedMem.
  repeat (inversion H as [|? ? ? H']; subst; clear H; rename H' into H). cbn -[N.land N.lor N.shiftl N.modulo].
  rewrite !land_128, !(N.mod_small _ 256) by lia.
  destruct (N.ltb_spec b0 128); [lia|]. destruct (N.ltb_spec b1 128); [lia|]. destruct (N.ltb_spec b2 128); [lia|]. destruct (N.ltb_spec b3 128); [lia|].
  destruct (N.ltb_spec b4 128); [lia|]. destruct (N.ltb_spec b5 128); [lia|]. destruct (N.ltb_spec b6 128); [lia|]. destruct (N.ltb_spec b7 128); [lia|].
  cbn -[N.land N.lor N.shiftl N.modulo]. destruct l; reflexivity.
Qed.

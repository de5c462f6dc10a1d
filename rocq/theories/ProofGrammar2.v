(** Reading back a written grammar: flags, lengths, variables, special symbols. *)
From Coq Require Import List NArith ZArith Lia Arith Bool.
From Coq Require Import ZifyBool ZifyNat ZifyN.
From Verif Require Import Base Arrays TArray ModelUtils ModelStreams ModelHeaders ProofUtils1 ProofUtils3 ProofHeaders ModelGrammar ProofGrammar1 SpecGrammar.
Import ListNotations.
Open Scope N_scope.

Lemma are_bytes_app : forall a b, are_bytes a -> are_bytes b -> are_bytes (a ++ b).
Proof. intros. apply Forall_app. auto. Qed.

(** ** Flags *)

Lemma be_val_zeros : forall k, be_val (repeat false k) = 0.
Proof.
  induction k as [|k IH]; [reflexivity|]. change (repeat false (S k)) with ([false] ++ repeat false k).
  rewrite be_val_app, IH. reflexivity.
Qed.
Lemma be_val_setbit : forall p (b : bool) k,
  N.lor (be_val (p ++ repeat false (S k))) (N.shiftl (if b then 1 else 0) (N.of_nat k)) =
  be_val ((p ++ [b]) ++ repeat false k).
Proof.
  intros p b k. rewrite !be_val_app, !be_val_zeros, !repeat_length. cbn [length].
  replace (be_val [b]) with (if b then 1 else 0) by (destruct b; reflexivity).
  rewrite !N.add_0_r. rewrite N.lor_comm. rewrite <- (N.shiftl_mul_pow2 _ (N.of_nat (S k))).
  rewrite (lor_add _ _ (N.of_nat (S k))).
  - rewrite N.shiftl_mul_pow2. replace (N.of_nat (S k)) with (1 + N.of_nat k) by lia. rewrite N.pow_add_r.
    change (2 ^ 1) with 2. change (2 ^ N.of_nat 1) with 2. lia.
  - rewrite N.shiftl_mul_pow2. replace (N.of_nat (S k)) with (1 + N.of_nat k) by lia. rewrite N.pow_add_r.
    pose proof (N.pow_nonzero 2 (N.of_nat k) ltac:(lia)). change (2 ^ 1) with 2. destruct b; lia.
Qed.
Lemma be_val_byte : forall l, length l = 8%nat -> be_val l < 256.
Proof. intros l H. pose proof (be_val_bound l) as B. rewrite H in B. exact B. Qed.

Lemma writeFlags_bits : forall rs p, (length p < 8)%nat -> exists pad, (pad < 8)%nat /\
  let out := writeFlags rs (be_val (p ++ repeat false (8 - length p))) (8 - length p) in
  bytes_bits out = p ++ map r_large rs ++ repeat false pad /\ are_bytes out.
Proof.
  induction rs as [|r rs IH]; intros p Hp; cbn [writeFlags map].
  - destruct (Nat.eqb_spec (8 - length p) 8) as [E|NE].
    + destruct p; [|cbn [length] in *; lia]. exists O. split; [lia|]. split; [reflexivity|constructor].
    + exists (8 - length p)%nat. split; [lia|]. rewrite bytes_bits_cons. unfold byte_bits.
      assert (L : length (p ++ repeat false (8 - length p)) = 8%nat) by (rewrite app_length, repeat_length; lia).
      split; [rewrite <- L at 1; rewrite be_val_bits; cbn; rewrite app_nil_r; reflexivity|].
      repeat constructor. apply be_val_byte. exact L.
  - replace (8 - length p)%nat with (S (8 - length (p ++ [r_large r]))) by (rewrite app_length; cbn [length]; lia).
    rewrite Nat.sub_succ, Nat.sub_0_r, be_val_setbit.
    destruct (Nat.eqb_spec (8 - length (p ++ [r_large r])) 0) as [E|NE].
    + destruct (IH [] ltac:(cbn; lia)) as (pad & Hpad & E1 & B). exists pad. split; [exact Hpad|].
      change (8 - length [])%nat with 8%nat in E1, B. change (be_val ([] ++ repeat false 8)) with 0 in E1, B.
      rewrite bytes_bits_cons, E1, E. cbn [repeat app]. rewrite app_nil_r. unfold byte_bits.
      assert (L : length (p ++ [r_large r]) = 8%nat) by (rewrite app_length in *; cbn [length] in *; lia).
      split; [rewrite <- L at 1; rewrite be_val_bits, <- app_assoc; reflexivity|].
      constructor; [apply be_val_byte; exact L|exact B].
    + destruct (IH (p ++ [r_large r])) as (pad & Hpad & E1 & B); [lia|]. exists pad. split; [exact Hpad|].
      cbv zeta. rewrite E1. split; [rewrite <- app_assoc; reflexivity|exact B].
Qed.

Lemma readFlags_ok : forall l s, readFlags (length l) (l ++ s) = (l, s).
Proof. induction l as [|b l IH]; intros s; [reflexivity|]. cbn [length readFlags app readBit]. rewrite IH. reflexivity. Qed.

(** ** Lengths of the rules *)

Definition blank (r : sym * list N) : prRule := mkRule (symVariable (fst r)) 0 0 (isTwo (fst r)).

Lemma digit_push : forall buffer d, buffer < 64 -> d < 4 -> N.lor (N.shiftl buffer 2 mod 256) d = 4 * buffer + d.
Proof.
  intros b d Hb Hd. rewrite N.shiftl_mul_pow2, N.mod_small by lia. rewrite <- N.shiftl_mul_pow2, N.lor_comm, lor_add by lia. lia.
Qed.
Lemma digit_get : forall lb k, N.land (N.shiftr lb k) 3 = lb / 2 ^ k mod 4.
Proof. intros. rewrite N.shiftr_div_pow2. apply (N.land_ones _ 2). Qed.

Ltac p4 := 
  change (4 ^ N.of_nat 0) with 1 in *; change (4 ^ N.of_nat 1) with 4 in *; change (4 ^ N.of_nat 2) with 16 in *;
  change (4 ^ N.of_nat 3) with 64 in *; change (4 ^ N.of_nat (4 - 1)) with 64 in *; change (4 ^ N.of_nat (4 - 2)) with 16 in *;
  change (4 ^ N.of_nat (4 - 3)) with 4 in *; change (4 ^ N.of_nat (4 - 4)) with 1 in *;
  change (2 ^ (6 - 2 * N.of_nat 0)) with 64 in *; change (2 ^ (6 - 2 * N.of_nat 1)) with 16 in *;
  change (2 ^ (6 - 2 * N.of_nat 2)) with 4 in *; change (2 ^ (6 - 2 * N.of_nat 3)) with 1 in *;
  change (2 ^ (8 - 2 * N.of_nat 1)) with 64 in *; change (2 ^ (8 - 2 * N.of_nat 2)) with 16 in *;
  change (2 ^ (8 - 2 * N.of_nat 3)) with 4 in *.
Lemma lengths_ok : forall rules, (forall k side, In (k, side) rules -> (2 <= length side <= 4)%nat /\ are_bytes side) ->
  forall pos0 buffer i, (i < 4)%nat -> buffer < 4 ^ N.of_nat i ->
  exists out, writeLengthsOfRules (layout pos0 rules) buffer i = Ok out /\ are_bytes out /\
    length out = (((i + length rules) / 4 + (if ((i + length rules) mod 4 =? 0) then 0 else 1)))%nat /\
    (i = O -> forall pos s, readLengthsOfRules (map blank rules) 0 0 pos (bytes_bits out ++ s) =
                            (layout pos rules, (pos + length (concat (map snd rules)))%nat, s)) /\
    ((0 < i)%nat -> exists lb tail, out = lb :: tail /\ lb / 4 ^ N.of_nat (4 - i) = buffer /\
       forall pos s, readLengthsOfRules (map blank rules) lb i pos (bytes_bits tail ++ s) =
                     (layout pos rules, (pos + length (concat (map snd rules)))%nat, s)).
Proof.
  assert (LB : forall rs lb lb' pos s, readLengthsOfRules rs lb 0 pos s = readLengthsOfRules rs lb' 0 pos s).
  { intros [|r rs] lb lb' pos s; reflexivity. }
  induction rules as [|(k, side) rules IH]; intros HR pos0 buffer i Hi HB; cbn [layout writeLengthsOfRules map blank fst concat].
  - eexists. split; [reflexivity|]. rewrite Nat.add_0_r.
    destruct (Nat.eqb_spec i 0) as [->|NZ].
    + split; [constructor|]. split; [reflexivity|]. split; [|lia]. intros _ pos s. cbn. rewrite Nat.add_0_r. reflexivity.
    + assert (X : N.shiftl buffer (8 - 2 * N.of_nat i) mod 256 = buffer * 2 ^ (8 - 2 * N.of_nat i) /\
                  buffer * 2 ^ (8 - 2 * N.of_nat i) < 256 /\ buffer * 2 ^ (8 - 2 * N.of_nat i) / 4 ^ N.of_nat (4 - i) = buffer).
      { rewrite N.shiftl_mul_pow2. destruct i as [|[|[|[|]]]]; try lia; p4; lia. }
      destruct X as (X1 & X2 & X3). rewrite X1. split; [repeat constructor; exact X2|].
      split; [destruct i as [|[|[|[|]]]]; try lia; reflexivity|]. split; [lia|]. intros _.
      do 2 eexists. split; [reflexivity|]. split; [exact X3|]. intros pos s. cbn. rewrite Nat.add_0_r. reflexivity.
  - destruct (HR k side) as (HL & HBy); [left; reflexivity|].
    assert (HR' : forall k side, In (k, side) rules -> (2 <= length side <= 4)%nat /\ are_bytes side)
      by (intros; apply (HR k0); right; assumption).
    cbn [r_end r_begin]. replace (pos0 + length side - pos0)%nat with (length side) by lia.
    replace ((2 <=? length side) && (length side <=? 4))%nat%bool with true by lia.
    set (d := N.of_nat (length side - 2)). assert (Hd : d < 4) by (unfold d; lia).
    assert (HB64 : buffer < 64) by (destruct i as [|[|[|[|]]]]; try lia; p4; lia).
    rewrite digit_push by assumption. cbn [snd].
    destruct (Nat.eqb_spec (S i) 4) as [E4|NE4].
    + assert (i = 3%nat) by lia. subst i. p4.
      destruct (IH HR' (pos0 + length side)%nat 0 0%nat ltac:(lia) ltac:(p4; lia)) as (out & E & B & L & R & _). rewrite E. cbn [bind].
      eexists. split; [reflexivity|]. split; [constructor; [unfold is_byte; lia|exact B]|].
      split; [cbn [length]; rewrite L; clear; destruct (Nat.eqb_spec ((0 + length rules) mod 4) 0);
              destruct (Nat.eqb_spec ((3 + S (length rules)) mod 4) 0); lia|]. split; [lia|]. intros _.
      do 2 eexists. split; [reflexivity|]. split; [p4; lia|]. intros pos s.
      cbn [readLengthsOfRules map blank fst Nat.eqb r_variable r_large]. rewrite digit_get.
      replace (2 + N.to_nat ((4 * buffer + d) / 2 ^ (6 - 2 * N.of_nat 3) mod 4))%nat with (length side)
        by (p4; unfold d; lia).
      rewrite (LB _ _ 0), (R eq_refl). cbn [layout concat snd]. rewrite app_length, Nat.add_assoc. reflexivity.
    + destruct (IH HR' (pos0 + length side)%nat (4 * buffer + d) (S i) ltac:(lia)) as (out & E & B & L & _ & R).
      { destruct i as [|[|[|[|]]]]; try lia; p4; lia. }
      destruct R as (lb & tail & -> & Elb & R); [lia|]. rewrite E.
      exists (lb :: tail). split; [reflexivity|]. split; [exact B|].
      split; [rewrite L; cbn [length]; replace (i + S (length rules))%nat with (S i + length rules)%nat by lia; reflexivity|].
      assert (DG : (2 + N.to_nat (lb / 2 ^ (6 - 2 * N.of_nat i) mod 4))%nat = length side).
      { destruct i as [|[|[|[|]]]]; try lia; p4; unfold d in *; lia. }
      inversion_clear B as [|? ? Blb Btail].
      split.
      * intros -> pos s. cbn [map readLengthsOfRules blank fst Nat.eqb r_variable r_large].
        rewrite bytes_bits_cons, <- app_assoc, readByte_spec by exact Blb. rewrite digit_get, DG, R.
        cbn [layout concat snd]. rewrite app_length, Nat.add_assoc. reflexivity.
      * intros Hpos. exists lb, tail. split; [reflexivity|]. split.
        { destruct i as [|[|[|[|]]]]; try lia; p4; lia. }
        intros pos s. cbn [map readLengthsOfRules blank fst r_variable r_large].
        destruct (Nat.eqb_spec i 0); [lia|]. destruct (Nat.eqb_spec i 3); [lia|]. rewrite digit_get, DG, R.
        cbn [layout concat snd]. rewrite app_length, Nat.add_assoc. reflexivity.
Qed.

(** ** Right-hand sides and packed integers *)

Lemma incr_ok : forall l i, length l = 256%nat -> i < 256 -> exists l', incr l i = Ok l' /\ length l' = 256%nat.
Proof.
  intros l i L H. unfold incr. destruct (nth_error_lt l (N.to_nat i)) as (x & E); [lia|].
  rewrite (get_ok _ _ _ E). cbn [bind]. rewrite set_ok by lia. eexists. split; [reflexivity|]. rewrite upd_length. exact L.
Qed.
Lemma readSides_ok : forall l s freqs, are_bytes l -> length freqs = 256%nat ->
  exists f, readSides (length l) (bytes_bits l ++ s) freqs = Ok (l, f, s).
Proof.
  induction l as [|c l IH]; intros s freqs B L; [exists freqs; reflexivity|].
  inversion_clear B as [|? ? Bc Bl]. cbn [length readSides]. rewrite bytes_bits_cons, <- app_assoc, readByte_spec by exact Bc.
  destruct (incr_ok freqs c L Bc) as (f1 & E1 & L1). rewrite E1. cbn [bind].
  destruct (IH s f1 Bl L1) as (f & E). rewrite E. cbn [bind]. eauto.
Qed.
Lemma packed_ok : forall v, v < 2 ^ 56 -> exists packed n, packInteger v = Ok (packed, n) /\ are_bytes (lowBytes n packed) /\
  length (lowBytes n packed) = n /\
  forall rest, readPackedInteger (bytes_bits (lowBytes n packed) ++ rest) = Ok (v, n, rest).
Proof.
  intros v Hv. destruct (pack_all v Hv) as (p & n & P1 & _ & _ & _ & _ & P4 & P5 & _ & P7).
  exists p, n. split; [exact P1|]. split; [exact P5|]. split; [exact P4|]. intros rest. apply P7.
Qed.

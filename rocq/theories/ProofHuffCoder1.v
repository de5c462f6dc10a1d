(** Bit buffer of the Huffman encoder; tables of the decoder. *)
From Coq Require Import List NArith ZArith Lia Arith Bool.
From Coq Require Import ZifyBool ZifyNat ZifyN.
From Verif Require Import Base Arrays ModelUtils ModelRuns ModelStreams ModelHeaders ModelHuffman ModelHuffmanCoder SpecHuffman.
From Verif Require Import ProofUtils1 ProofUtils2 ProofStreams2 ProofHeaders ProofHuffman5.
Import ListNotations.
Open Scope nat_scope.

(** ** Bits of shifted values *)
Lemma be_bits_split : forall a b n, be_bits (a + b) n = be_bits a (n / 2 ^ N.of_nat b)%N ++ be_bits b n.
Proof. exact be_bits_app. Qed.

Lemma be_bits_land255 : forall x w, w <= 8 -> be_bits w (N.land x 255) = be_bits w x.
Proof.
  intros x w H. change 255%N with (N.ones 8). rewrite N.land_ones.
  change 8%N with (N.of_nat 8). apply be_bits_mod. exact H.
Qed.

Lemma be_bits_shl_or : forall b len buffer v, b + len <= 64 -> (v < 2 ^ N.of_nat len)%N ->
  be_bits (b + len) (N.lor (N.shiftl buffer (N.of_nat len) mod two64) v) = be_bits b buffer ++ be_bits len v.
Proof.
  intros b len buffer v H V. rewrite be_bits_split. f_equal.
  - apply be_bits_low. intros i Hi. rewrite N.div_pow2_bits. rewrite N.lor_spec.
    unfold two64. change 18446744073709551616%N with (2 ^ 64)%N.
    rewrite N.mod_pow2_bits_low by lia. rewrite N.shiftl_spec_high' by lia.
    replace (N.of_nat i + N.of_nat len - N.of_nat len)%N with (N.of_nat i) by lia.
    assert (E : N.testbit v (N.of_nat i + N.of_nat len) = false).
    { destruct (N.eq_dec v 0) as [->|NZ]; [apply N.bits_0|].
      apply N.bits_above_log2. apply N.log2_lt_pow2; [lia|].
      eapply N.lt_le_trans; [exact V|]. apply N.pow_le_mono_r; lia. }
    rewrite E, orb_false_r. reflexivity.
  - apply be_bits_low. intros i Hi. rewrite N.lor_spec.
    unfold two64. change 18446744073709551616%N with (2 ^ 64)%N.
    rewrite N.mod_pow2_bits_low by lia. rewrite N.shiftl_spec_low by lia. reflexivity.
Qed.

(** ** Bit buffer *)
Ltac eight b := do 8 (destruct b as [|b]; [try lia|]).

Lemma byte_out : forall b buffer, be_bits (8 + b) buffer =
  byte_bits (N.land (N.shiftr buffer (N.of_nat b)) 255) ++ be_bits b buffer.
Proof.
  intros b buffer. rewrite be_bits_split. f_equal. unfold byte_bits. rewrite be_bits_land255 by lia.
  rewrite N.shiftr_div_pow2. reflexivity.
Qed.
Lemma land255_byte : forall x, (N.land x 255 < 256)%N.
Proof. intros x. change 255%N with (N.ones 8). rewrite N.land_ones. apply N.mod_lt. discriminate. Qed.

Lemma drain_eq : forall b len buffer, drain (S (S (S (S (S (S (S (S b)))))))) len buffer =
  if (64 <? S (S (S (S (S (S (S (S b))))))) + len) then
    let! (b', out) := drain b len buffer in Ok (b', N.land (N.shiftr buffer (N.of_nat b)) 255 :: out)
  else Ok (S (S (S (S (S (S (S (S b))))))), []).
Proof. reflexivity. Qed.

Lemma drain_spec : forall bits len buffer, len <= 57 -> bits <= 64 ->
  exists b' out, drain bits len buffer = Ok (b', out) /\ b' + len <= 64 /\ are_bytes out /\
    be_bits bits buffer = bytes_bits out ++ be_bits b' buffer.
Proof.
  induction bits as [bits IH] using lt_wf_ind. intros len buffer L B.
  destruct (Nat.ltb_spec 64 (bits + len)) as [G|G].
  - destruct (Nat.le_exists_sub 8 bits ltac:(lia)) as (b & E & _).
    replace bits with (8 + b) in * by lia. clear E.
    destruct (IH b ltac:(lia) len buffer L ltac:(lia)) as (b' & out & A1 & A2 & A3 & A4).
    exists b', (N.land (N.shiftr buffer (N.of_nat b)) 255 :: out).
    split; [|split; [exact A2|split]].
    + cbn [Nat.add]. rewrite drain_eq. cbn [Nat.add] in G.
      replace (64 <? S (S (S (S (S (S (S (S b))))))) + len) with true by lia. rewrite A1. reflexivity.
    + constructor; [apply land255_byte|exact A3].
    + rewrite byte_out, A4. rewrite bytes_bits_cons, <- app_assoc. reflexivity.
  - exists bits, []. split; [|split; [exact G|split; [constructor|reflexivity]]].
    assert (E : drain bits len buffer = if 64 <? bits + len then
      match bits with
      | S (S (S (S (S (S (S (S b))))))) =>
        let! (b', out) := drain b len buffer in Ok (b', N.land (N.shiftr buffer (N.of_nat b)) 255 :: out)
      | _ => UB end else Ok (bits, [])) by (destruct bits; reflexivity).
    rewrite E. replace (64 <? bits + len) with false by lia. reflexivity.
Qed.

Lemma drainAll_spec : forall bits buffer,
  let (b', out) := drainAll bits buffer in b' < 8 /\ are_bytes out /\
    be_bits bits buffer = bytes_bits out ++ be_bits b' buffer.
Proof.
  induction bits as [bits IH] using lt_wf_ind. intros buffer.
  destruct (Nat.lt_ge_cases bits 8) as [G|G].
  - assert (E : drainAll bits buffer = (bits, [])) by (do 8 (destruct bits as [|bits]; [reflexivity|]); lia).
    rewrite E. split; [exact G|]. split; [constructor|reflexivity].
  - destruct (Nat.le_exists_sub 8 bits G) as (b & E & _).
    replace bits with (8 + b) in * by lia. clear E. specialize (IH b ltac:(lia) buffer).
    assert (E : drainAll (8 + b) buffer = (let (b', out) := drainAll b buffer in
        (b', N.land (N.shiftr buffer (N.of_nat b)) 255 :: out))) by reflexivity.
    rewrite E. destruct (drainAll b buffer) as [b' out]. destruct IH as (A & B & C).
    split; [exact A|]. split; [constructor; [apply land255_byte|exact B]|].
    rewrite byte_out, C, bytes_bits_cons, <- app_assoc. reflexivity.
Qed.

Definition codeBits (codes : list (nat * N)) : list bool := flat_map (fun p => be_bits (fst p) (snd p)) codes.

Lemma packCodes_spec : forall codes buffer bits, bits <= 64 ->
  Forall (fun p => fst p <= 57 /\ (snd p < 2 ^ N.of_nat (fst p))%N) codes ->
  exists out pad, packCodes codes buffer bits = Ok out /\ are_bytes out /\ pad < 8 /\
    bytes_bits out = be_bits bits buffer ++ codeBits codes ++ repeat false pad.
Proof.
  induction codes as [|[len v] codes IH]; intros buffer bits B F.
  - cbn [packCodes codeBits flat_map app]. pose proof (drainAll_spec bits buffer) as D.
    destruct (drainAll bits buffer) as [b out]. destruct D as (D1 & D2 & D3).
    destruct (Nat.ltb_spec 0 b) as [G|G].
    + exists (out ++ [N.land (N.shiftl buffer (N.of_nat (8 - b)) mod two64) 255]), (8 - b).
      split; [reflexivity|]. split; [|split; [lia|]].
      * apply Forall_app. split; [exact D2|]. constructor; [apply land255_byte|constructor].
      * rewrite bytes_bits_app, D3, <- app_assoc. f_equal.
        rewrite bytes_bits_cons. change (bytes_bits []) with (@nil bool). rewrite app_nil_r.
        unfold byte_bits. rewrite be_bits_land255 by lia.
        replace 8 with (b + (8 - b)) at 1 by lia.
        pose proof (be_bits_shl_or b (8 - b) buffer 0 ltac:(lia) (pow2_pos _)) as S. rewrite N.lor_0_r in S.
        rewrite S. f_equal. apply (be_bits_zero_low (8 - b) 0).
    + assert (b = 0) as -> by lia. exists out, 0. split; [reflexivity|]. split; [exact D2|]. split; [lia|].
      rewrite D3. cbn [repeat be_bits]. rewrite !app_nil_r. reflexivity.
  - inversion_clear F as [|? ? [F1 F2] F3]. cbn [fst snd] in F1, F2.
    destruct (drain_spec bits len buffer F1 B) as (b' & out & A1 & A2 & A3 & A4).
    destruct (IH (N.lor (N.shiftl buffer (N.of_nat len) mod two64) v) (b' + len) A2 F3) as (out' & pad & C1 & C2 & C3 & C4).
    exists (out ++ out'), pad. cbn [packCodes]. rewrite A1. cbn [bind].
    replace (64 <=? len) with false by lia. rewrite C1. cbn [bind].
    split; [reflexivity|]. split; [apply Forall_app; auto|]. split; [exact C3|].
    rewrite bytes_bits_app, C4, be_bits_shl_or by assumption.
    cbn [codeBits flat_map fst snd]. fold (codeBits codes). rewrite A4, <- !app_assoc. reflexivity.
Qed.

(** ** Small tables, checked exhaustively *)
Definition lzCheck : bool :=
  forallb (fun p => forallb (fun k =>
    match leadingZeros p (N.of_nat k) with
    | Ok z => (z <=? p) && (if list_eq_dec Bool.bool_dec (be_bits p (N.of_nat k))
                 (repeat false z ++ be_bits (p - z) (N.of_nat k)) then true else false)
              && ((z =? p) || N.testbit (N.of_nat k) (N.of_nat (p - z - 1)))
    | _ => false
    end) (seq 0 256)) (seq 0 9).
Lemma lzCheck_true : lzCheck = true.
Proof. vm_compute. reflexivity. Qed.
Lemma leadingZeros_spec : forall p k, p <= 8 -> (k < 256)%N ->
  exists z, leadingZeros p k = Ok z /\ z <= p /\ be_bits p k = repeat false z ++ be_bits (p - z) k /\
    (p - z = 0 \/ N.testbit k (N.of_nat (p - z - 1)) = true).
Proof.
  intros p k Hp Hk. pose proof lzCheck_true as H. unfold lzCheck in H. rewrite forallb_forall in H.
  specialize (H p ltac:(apply in_seq; lia)). rewrite forallb_forall in H.
  specialize (H (N.to_nat k) ltac:(apply in_seq; lia)). rewrite N2Nat.id in H.
  destruct (leadingZeros p k) as [z| |]; try discriminate.
  apply andb_true_iff in H. destruct H as [H H3]. apply andb_true_iff in H. destruct H as [H1 H2].
  exists z. split; [reflexivity|]. split; [lia|]. split.
  - destruct (list_eq_dec Bool.bool_dec (be_bits p k) (repeat false z ++ be_bits (p - z) k)); [assumption|discriminate].
  - apply orb_true_iff in H3. destruct H3 as [H3|H3]; [left; lia|right; exact H3].
Qed.

Definition mnbCheck : bool :=
  forallb (fun k => let m := maxNonZeroBit (N.of_nat k) in
    (1 <=? m) && (m <=? 8) && (2 ^ (N.of_nat m - 1) <=? N.of_nat k)%N && (N.of_nat k <? 2 ^ N.of_nat m)%N) (seq 1 255).
Lemma mnbCheck_true : mnbCheck = true.
Proof. vm_compute. reflexivity. Qed.
Lemma maxNonZeroBit_spec : forall c, (0 < c < 256)%N ->
  1 <= maxNonZeroBit c <= 8 /\ (2 ^ (N.of_nat (maxNonZeroBit c) - 1) <= c < 2 ^ N.of_nat (maxNonZeroBit c))%N.
Proof.
  intros c Hc. pose proof mnbCheck_true as H. unfold mnbCheck in H. rewrite forallb_forall in H.
  specialize (H (N.to_nat c) ltac:(apply in_seq; lia)). rewrite N2Nat.id in H. cbv zeta in H.
  set (m := maxNonZeroBit c) in *. rewrite !andb_true_iff in H. destruct H as [[[H1 H2] H3] H4].
  apply N.leb_le in H3. apply N.ltb_lt in H4. split; [lia|]. split; assumption.
Qed.

(** ** The lookup tables *)
Definition shaped (t : table) : Prop := length t = 50 /\ Forall (fun row => length row = 256) t.
Lemma get2_ok : forall t i j, shaped t -> i < 50 -> (j < 256)%N -> exists v, get2 t i j = Ok v.
Proof.
  intros t i j [L F] Hi Hj. unfold get2. destruct (nth_error_lt t i ltac:(lia)) as [row Hr].
  rewrite (get_ok _ _ _ Hr). cbn [bind].
  assert (length row = 256) as Lr by (rewrite Forall_forall in F; apply F; eapply nth_error_In; eauto).
  destruct (nth_error_lt row (N.to_nat j) ltac:(lia)) as [v Hv]. exists v. apply get_ok. exact Hv.
Qed.
Lemma set2_spec : forall t i j v, shaped t -> i < 50 -> (j < 256)%N ->
  exists t', set2 t i j v = Ok t' /\ shaped t' /\
    forall a b, a < 50 -> (b < 256)%N -> get2 t' a b = if (a =? i) && (b =? j)%N then Ok v else get2 t a b.
Proof.
  intros t i j v [L F] Hi Hj. destruct (nth_error_lt t i ltac:(lia)) as [row Hr].
  assert (length row = 256) as Lr by (rewrite Forall_forall in F; apply F; eapply nth_error_In; eauto).
  exists (upd t i (upd row (N.to_nat j) v)). split; [|split].
  - unfold set2. rewrite (get_ok _ _ _ Hr). cbn [bind]. rewrite set_ok by lia. cbn [bind]. apply set_ok. lia.
  - split; [rewrite upd_length; exact L|]. apply Forall_forall. intros r Hin.
    destruct (In_nth_error _ _ Hin) as [a Ha]. rewrite nth_error_upd in Ha by lia.
    destruct (Nat.eqb_spec a i).
    + injection Ha as <-. rewrite upd_length. exact Lr.
    + rewrite Forall_forall in F. apply F. eapply nth_error_In; eauto.
  - intros a b Ha Hb. unfold get2, get. rewrite nth_error_upd by lia. destruct (Nat.eqb_spec a i) as [->|NE]; cbn [andb].
    + cbn [bind]. rewrite nth_error_upd by lia. rewrite Hr. cbn [bind].
      destruct (N.eqb_spec b j) as [->|NE]; [rewrite Nat.eqb_refl; reflexivity|].
      replace (N.to_nat b =? N.to_nat j) with false by lia. reflexivity.
    + reflexivity.
Qed.
Lemma fillEntries_spec : forall n t lead0 from v, shaped t -> lead0 < 50 -> (from + N.of_nat n <= 256)%N ->
  exists t', fillEntries n t lead0 from v = Ok t' /\ shaped t' /\
    forall a b, a < 50 -> (b < 256)%N ->
      get2 t' a b = if (a =? lead0) && (from <=? b)%N && (b <? from + N.of_nat n)%N then Ok v else get2 t a b.
Proof.
  induction n as [|n IH]; intros t lead0 from v S L H.
  - exists t. split; [reflexivity|]. split; [exact S|]. intros a b Ha Hb.
    replace ((a =? lead0) && (from <=? b)%N && (b <? from + N.of_nat 0)%N) with false by lia. reflexivity.
  - destruct (set2_spec t lead0 from v S L ltac:(lia)) as (t1 & A & B & C).
    destruct (IH t1 lead0 (from + 1)%N v B L ltac:(lia)) as (t2 & D & E & G).
    exists t2. split; [|split; [exact E|]].
    + cbn [fillEntries]. rewrite A. exact D.
    + intros a b Ha Hb. rewrite G, C by assumption.
      destruct ((a =? lead0) && (from <=? b)%N && (b <? from + N.of_nat (Datatypes.S n))%N) eqn:X.
      * destruct ((a =? lead0) && (from + 1 <=? b)%N && (b <? from + 1 + N.of_nat n)%N) eqn:Y; [reflexivity|].
        replace ((a =? lead0) && (b =? from)%N) with true by lia. reflexivity.
      * replace ((a =? lead0) && (from + 1 <=? b)%N && (b <? from + 1 + N.of_nat n)%N) with false by lia.
        replace ((a =? lead0) && (b =? from)%N) with false by lia. reflexivity.
Qed.

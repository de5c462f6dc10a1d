(** Proofs about headers, sections and slicing. *)
From Coq Require Import List NArith ZArith Lia Arith Bool.
From Coq Require Import ZifyBool ZifyNat ZifyN.
From Verif Require Import Base ModelUtils ModelStreams ModelHeaders SpecStreams SpecHeaders.
From Verif Require Import ProofUtils1 ProofUtils2 ProofUtils3 ProofStreams1 ProofStreams2.
Import ListNotations.
Open Scope N_scope.

(** ** Gathering bits *)
Lemma shl1_mod : forall s b, s < 256 ->
  N.lor (N.shiftl s 1 mod 256) (N.b2n b) = 2 * (s mod 128) + N.b2n b.
Proof.
  intros s b H.
  assert (E : N.shiftl s 1 mod 256 = N.shiftl (s mod 128) 1).
  { rewrite !N.shiftl_mul_pow2. change (2 ^ 1) with 2. lia. }
  rewrite E, N.lor_comm, lor_add.
  - change (2 ^ 1) with 2. lia.
  - destruct b; cbn; lia.
Qed.

Lemma be_bits_mod : forall w k n, (w <= k)%nat -> be_bits w (n mod 2 ^ N.of_nat k) = be_bits w n.
Proof.
  intros w k n H. apply be_bits_low. intros i Hi. apply N.mod_pow2_bits_low. lia.
Qed.

Lemma be_bits_push : forall w s b, (w < 8)%nat -> s < 256 ->
  be_bits (S w) (N.lor (N.shiftl s 1 mod 256) (N.b2n b)) = be_bits w s ++ [b].
Proof.
  intros w s b Hw Hs. rewrite shl1_mod by exact Hs. rewrite be_bits_snoc.
  f_equal.
  - replace ((2 * (s mod 128) + N.b2n b) / 2) with (s mod 128) by (destruct b; cbn [N.b2n]; lia).
    change 128 with (2 ^ N.of_nat 7). apply be_bits_mod. lia.
  - rewrite N.add_comm, N.odd_add_mul_2. destruct b; reflexivity.
Qed.

Lemma push_byte : forall s b, s < 256 -> N.lor (N.shiftl s 1 mod 256) (N.b2n b) < 256.
Proof. intros s b H. rewrite shl1_mod by exact H. destruct b; cbn [N.b2n]; lia. Qed.

Definition gathered (st : N * nat * list N) : list bool :=
  let '(s, lft, out) := st in bytes_bits out ++ be_bits (8 - lft) s.
Definition gather_ok (st : N * nat * list N) : Prop :=
  let '(s, lft, out) := st in s < 256 /\ (1 <= lft <= 8)%nat /\ are_bytes out.

Lemma gatherBit_spec : forall st b, gather_ok st ->
  gather_ok (gatherBit st b) /\ gathered (gatherBit st b) = gathered st ++ [b].
Proof.
  intros [[s lft] out] b (Hs & Hl & Ho). unfold gatherBit.
  pose proof (push_byte s b Hs) as HB.
  pose proof (be_bits_push (8 - lft) s b ltac:(lia) Hs) as HP.
  destruct (Nat.eqb_spec (lft - 1) 0).
  - assert (lft = 1%nat) as -> by lia. cbn [gathered gather_ok].
    split; [repeat split; try lia; auto; apply Forall_app; split; auto; constructor; auto|].
    rewrite bytes_bits_app. cbn [Nat.sub be_bits]. rewrite app_nil_r, <- app_assoc. f_equal.
    unfold bytes_bits. cbn [flat_map]. rewrite app_nil_r. exact HP.
  - cbn [gathered gather_ok]. split; [repeat split; try lia; auto|].
    replace (8 - (lft - 1))%nat with (S (8 - lft)) by lia. rewrite HP, app_assoc. reflexivity.
Qed.

Lemma gather_bits : forall v l st, gather_ok st ->
  let st' := fold_left (fun st j => gatherBit st (N.testbit v j)) l st in
  gather_ok st' /\ gathered st' = gathered st ++ map (N.testbit v) l.
Proof.
  intros v. induction l as [|j l IH]; intros st H; cbn [fold_left map].
  - rewrite app_nil_r. auto.
  - destruct (gatherBit_spec st (N.testbit v j) H) as [A B].
    destruct (IH _ A) as [C D]. split; [exact C|]. rewrite D, B, <- app_assoc. reflexivity.
Qed.

Lemma be_bits_map : forall w n, be_bits w n = map (N.testbit n) (map N.of_nat (rev (seq 0 w))).
Proof.
  induction w as [|w IH]; intros n; auto.
  rewrite seq_S, rev_app_distr. cbn [be_bits rev app map Nat.add]. rewrite IH. reflexivity.
Qed.

Lemma gather_words : forall lf st, gather_ok st ->
  let st' := fold_left (fun st v => fold_left (fun st j => gatherBit st (N.testbit v j))
                             (map N.of_nat (rev (seq 0 31))) st) lf st in
  gather_ok st' /\ gathered st' = gathered st ++ flat_map (be_bits 31) lf.
Proof.
  induction lf as [|v lf IH]; intros st H; cbn [fold_left flat_map].
  - rewrite app_nil_r. auto.
  - destruct (gather_bits v (map N.of_nat (rev (seq 0 31))) st H) as [A B].
    destruct (IH _ A) as [C D]. split; [exact C|]. rewrite D, B, <- be_bits_map, <- app_assoc. reflexivity.
Qed.

Lemma be_bits_zero_low : forall b s, be_bits b (s * 2 ^ N.of_nat b) = repeat false b.
Proof.
  intros b s.
  assert (G : forall w, (w <= b)%nat -> be_bits w (s * 2 ^ N.of_nat b) = repeat false w).
  { induction w as [|w IH]; intros H; auto. cbn [be_bits repeat]. rewrite IH by lia. f_equal.
    apply N.mul_pow2_bits_low. lia. }
  apply G. lia.
Qed.

Lemma pad_bits : forall w s, (w <= 8)%nat ->
  byte_bits (N.shiftl s (N.of_nat (8 - w)) mod 256) = be_bits w s ++ repeat false (8 - w).
Proof.
  intros w s H. unfold byte_bits. change 256 with (2 ^ N.of_nat 8). rewrite be_bits_mod by lia.
  rewrite N.shiftl_mul_pow2. replace 8%nat with (w + (8 - w))%nat at 1 by lia.
  rewrite be_bits_app, be_bits_zero_low, N.div_mul by (apply N.pow_nonzero; lia). reflexivity.
Qed.

Lemma writeHeader_bits : forall lf, exists pad,
  let (out, n) := writeHeader lf in
  n = length out /\ are_bytes out /\ (pad < 8)%nat /\
  bytes_bits out = byte_bits ((N.of_nat (length lf) + 255) mod 256) ++ flat_map (be_bits 31) lf ++ repeat false pad.
Proof.
  intros lf. unfold writeHeader. set (s0 := (N.of_nat (length lf) + 255) mod 256).
  assert (Hs0 : s0 < 256) by (unfold s0; lia).
  destruct (gather_words lf (s0, 8%nat, [s0])) as [A B].
  { cbn. repeat split; try lia. repeat constructor; auto. }
  match type of A with gather_ok ?x => set (st := x) in * end.
  destruct st as [[s lft] out]. cbn [gather_ok gathered] in A, B.
  change (be_bits (8 - 8) s0) with (@nil bool) in B.
  destruct A as (Hs & Hl & Ho).
  rewrite app_nil_r in B. change (bytes_bits [s0]) with (byte_bits s0 ++ []) in B. rewrite app_nil_r in B.
  exists (if (lft <? 8)%nat then lft else 0%nat).
  destruct (Nat.ltb_spec lft 8).
  - split; [reflexivity|]. split.
    + apply Forall_app. split; auto. constructor; [|constructor]. unfold is_byte. lia.
    + split; [exact H|]. rewrite bytes_bits_app. unfold bytes_bits at 2. cbn [flat_map]. rewrite app_nil_r.
      pose proof (pad_bits (8 - lft) s ltac:(lia)) as P.
      replace (8 - (8 - lft))%nat with lft in P by lia. rewrite P.
      rewrite app_assoc, B, <- app_assoc. reflexivity.
  - assert (lft = 8%nat) as -> by lia. split; [reflexivity|]. split; [exact Ho|]. split; [lia|].
    cbn [Nat.sub be_bits repeat] in *. rewrite app_nil_r in *. rewrite B. reflexivity.
Qed.

Lemma readPowers_spec : forall lf rest, Forall (fun v => v < 2 ^ 31) lf ->
  readPowers (length lf) (flat_map (be_bits 31) lf ++ rest) = (lf, rest).
Proof.
  induction lf as [|v lf IH]; intros rest H; auto.
  inversion_clear H as [|? ? Hv Hl].
  change (flat_map (be_bits 31) (v :: lf)) with (be_bits 31 v ++ flat_map (be_bits 31) lf).
  change (length (v :: lf)) with (S (length lf)). cbn [readPowers].
  rewrite <- app_assoc, readInto_be by exact Hv. rewrite IH by exact Hl. reflexivity.
Qed.

Lemma flush_pad : forall pad following, (pad < 8)%nat ->
  absFlushBuffer (repeat false pad ++ bytes_bits following) = bytes_bits following.
Proof.
  intros pad following H. unfold absFlushBuffer.
  rewrite app_length, repeat_length, bytes_bits_length, (Nat.mul_comm 8), Nat.mod_add by lia.
  rewrite Nat.mod_small by lia. rewrite skipn_app, repeat_length, Nat.sub_diag, skipn_all2.
  - reflexivity.
  - rewrite repeat_length. lia.
Qed.

Lemma flush_bytes : forall following, absFlushBuffer (bytes_bits following) = bytes_bits following.
Proof. intros. apply (flush_pad 0 following). lia. Qed.

Lemma C24_all : forall lf, (1 <= length lf <= 256)%nat -> Forall (fun v => v < 2 ^ 31) lf ->
  exists out n, writeHeader lf = (out, n) /\ n = length out /\
    n = (1 + (31 * length lf + 7) / 8)%nat /\ are_bytes out /\
    forall following, readHeader (bytes_bits out ++ bytes_bits following) = (lf, bytes_bits following).
Proof.
  intros lf Hl Hv. destruct (writeHeader_bits lf) as [pad H].
  destruct (writeHeader lf) as [out n]. destruct H as (Hn & Hb & Hp & HB).
  exists out, n. split; [reflexivity|]. split; [exact Hn|]. split.
  { assert (L : length (bytes_bits out) = (8 + (31 * length lf + pad))%nat).
    { rewrite HB, !app_length, byte_bits_length, repeat_length. f_equal. f_equal. clear.
      induction lf as [|v lf IH]; auto.
      change (flat_map (be_bits 31) (v :: lf)) with (be_bits 31 v ++ flat_map (be_bits 31) lf).
      rewrite app_length, be_bits_length, IH. cbn [length]. lia. }
    rewrite bytes_bits_length in L. subst n. lia. }
  split; [exact Hb|]. intros following. rewrite HB, <- !app_assoc. unfold readHeader.
  rewrite readByte_spec by lia.
  replace (N.to_nat ((N.of_nat (length lf) + 255) mod 256 + 1)) with (length lf) by lia.
  rewrite readPowers_spec by exact Hv. rewrite flush_pad by exact Hp. reflexivity.
Qed.

(** ** Shape bytes *)
Lemma shape_fold : forall bits acc, acc < 256 ->
  let b := fold_left (fun b (bit : bool) => N.lor (N.shiftl b 1 mod 256) (N.b2n bit)) bits acc in
  b < 256 /\ forall w, (w + length bits <= 8)%nat -> be_bits (w + length bits) b = be_bits w acc ++ bits.
Proof.
  induction bits as [|b bits IH]; intros acc H; cbn [fold_left length].
  - split; [exact H|]. intros w Hw. rewrite Nat.add_0_r, app_nil_r. reflexivity.
  - destruct (IH _ (push_byte acc b H)) as [A B]. split; [exact A|]. intros w Hw.
    specialize (B (S w) ltac:(lia)). replace (w + S (length bits))%nat with (S w + length bits)%nat by lia.
    rewrite B, be_bits_push by (try lia; exact H). rewrite <- app_assoc. reflexivity.
Qed.

Lemma shapeByte_spec : forall bits, (length bits <= 8)%nat ->
  shapeByte bits < 256 /\ byte_bits (shapeByte bits) = bits ++ repeat false (8 - length bits).
Proof.
  intros bits H. unfold shapeByte. destruct (shape_fold bits 0 ltac:(lia)) as [A B].
  specialize (B 0%nat H). cbn [Nat.add be_bits app] in B.
  match type of A with ?x < _ => set (b := x) in * end.
  destruct (Nat.ltb_spec (length bits) 8).
  - split; [lia|]. rewrite pad_bits by lia. rewrite B. reflexivity.
  - split; [exact A|]. assert (E : length bits = 8%nat) by lia. rewrite E in *.
    unfold byte_bits. rewrite B. cbn [Nat.sub repeat]. rewrite app_nil_r. reflexivity.
Qed.

Lemma writeShapeLoop_spec : forall fuel shape, (length shape <= fuel)%nat -> exists pad, (pad < 8)%nat /\
  are_bytes (writeShapeLoop fuel shape) /\
  bytes_bits (writeShapeLoop fuel shape) = shape ++ repeat false pad.
Proof.
  induction fuel as [|f IH]; intros shape H.
  - destruct shape; [|cbn in H; lia]. exists 0%nat. cbn. repeat split; try lia. constructor.
  - destruct shape as [|b shape]; [exists 0%nat; cbn; repeat split; try lia; constructor|].
    set (l := b :: shape) in *.
    assert (Hl : (1 <= length l)%nat) by (unfold l; cbn; lia).
    assert (E : writeShapeLoop (S f) l = shapeByte (firstn 8 l) :: writeShapeLoop f (skipn 8 l)) by reflexivity.
    rewrite E. destruct (shapeByte_spec (firstn 8 l)) as [A B]; [rewrite firstn_length; lia|].
    destruct (IH (skipn 8 l)) as [pad (P1 & P2 & P3)]; [rewrite skipn_length; lia|].
    destruct (Nat.le_gt_cases 8 (length l)).
    + exists pad. split; [exact P1|]. split; [constructor; auto|].
      rewrite bytes_bits_cons, B, P3, firstn_length, Nat.min_l by lia. cbn [Nat.sub repeat].
      rewrite app_nil_r, app_assoc, firstn_skipn. reflexivity.
    + exists (8 - length l)%nat. split; [lia|]. split; [constructor; auto|].
      rewrite bytes_bits_cons, B. rewrite skipn_all2 by lia.
      replace (writeShapeLoop f []) with (@nil N) by (destruct f; reflexivity).
      change (bytes_bits []) with (@nil bool). rewrite app_nil_r.
      rewrite firstn_all2 by lia. reflexivity.
Qed.

Lemma writeShape_spec : forall shape, exists pad, (pad < 8)%nat /\
  are_bytes (writeShapeBytes shape) /\ bytes_bits (writeShapeBytes shape) = shape ++ repeat false pad.
Proof. intros. apply writeShapeLoop_spec. lia. Qed.

(** ** Sections *)
Lemma sumN_app : forall a b, sumN (a ++ b) = sumN a + sumN b.
Proof. induction a as [|x a IH]; intros b; [reflexivity|]. cbn [app sumN fold_right]. unfold sumN in *. rewrite IH. lia. Qed.

Lemma sectionLoop_spec : forall stats sum temp, sum < 10000 -> sum + sumN stats + sumN temp < two32 ->
  Forall (fun x => 10000 <= x) temp ->
  let (sum', temp') := sectionLoop stats sum temp in
  sum' < 10000 /\ Forall (fun x => 10000 <= x) temp' /\ sum' + sumN temp' = sum + sumN stats + sumN temp /\
  (length temp' <= length temp + length stats)%nat /\ ((length temp' = length temp + length stats)%nat -> stats = [] \/ sum' = 0).
Proof.
  assert (Q : two32 < two64) by reflexivity.
  induction stats as [|x stats IH]; intros sum temp Hs Hb Ht; cbn [sectionLoop].
  - cbn [length sumN fold_right]. unfold sumN. cbn. repeat split; try lia; auto.
  - change (sumN (x :: stats)) with (x + sumN stats) in *.
    rewrite N.mod_small by lia. cbn [length].
    destruct (N.leb_spec 10000 (sum + x)).
    + rewrite N.mod_small by lia.
      specialize (IH 0 (temp ++ [sum + x]) ltac:(lia)). rewrite sumN_app in IH.
      change (sumN [sum + x]) with (sum + x + 0) in IH.
      specialize (IH ltac:(lia)).
      destruct (sectionLoop stats 0 (temp ++ [sum + x])) as [sum' temp'] eqn:E.
      destruct IH as (I1 & I2 & I3 & I4 & I5); [apply Forall_app; split; auto|].
      rewrite app_length in *. cbn [length] in *.
      repeat split; try lia; auto. intros EL. destruct I5 as [->|I5]; [lia| |auto].
      right. cbn in E. injection E as <- <-. reflexivity.
    + specialize (IH (sum + x) temp ltac:(lia) ltac:(lia) Ht).
      destruct (sectionLoop stats (sum + x) temp) as [sum' temp'].
      destruct IH as (I1 & I2 & I3 & I4 & I5).
      repeat split; try lia; auto.
Qed.

Lemma deduceSections_spec : forall stats, 0 < sumN stats < two32 -> (length stats <= 256)%nat ->
  sumN (deduceSections stats) = sumN stats /\ Forall (fun x => 0 < x) (deduceSections stats) /\
  (1 <= length (deduceSections stats) <= 256)%nat.
Proof.
  intros stats H HL. unfold deduceSections.
  pose proof (sectionLoop_spec stats 0 [] ltac:(lia)) as I. change (sumN []) with 0 in I.
  destruct (sectionLoop stats 0 []) as [sum temp]. specialize (I ltac:(lia) ltac:(constructor)).
  destruct I as (I1 & I2 & I3 & I4 & I5). cbn [length Nat.add] in *. rewrite N.add_0_r in I3.
  rewrite N.add_0_l in I3.
  assert (Q : 10000 < two32) by reflexivity.
  assert (P : Forall (fun x => 0 < x) temp) by (eapply Forall_impl; [|exact I2]; cbn; intros; lia).
  destruct (N.eqb_spec sum 0) as [->|NZ].
  - split; [lia|]. split; [exact P|]. split; [|lia]. destruct temp; [cbn in I3; lia|cbn; lia].
  - destruct (rev temp) as [|x r] eqn:ER.
    + assert (temp = []) as -> by (rewrite <- (rev_involutive temp), ER; reflexivity).
      rewrite N.mod_small by lia. cbn [length]. change (sumN [sum]) with (sum + 0).
      change (sumN []) with 0 in I3. split; [lia|]. split; [constructor; [lia|constructor]|lia].
    + assert (ET : temp = rev r ++ [x]) by (rewrite <- (rev_involutive temp), ER; reflexivity).
      subst temp. rewrite !app_length in *. cbn [length] in *. rewrite !sumN_app in *.
      change (sumN [x]) with (x + 0) in I3. apply Forall_app in P. destruct P as [P1 P2].
      inversion_clear P2. rewrite N.mod_small by lia. change (sumN [x + sum]) with (x + sum + 0).
      split; [lia|]. split; [apply Forall_app; split; auto; constructor; [lia|constructor]|lia].
Qed.

Lemma lengths_spec : forall l, Forall (fun x => x < 2 ^ 56) l ->
  exists out, writeLengths l = Ok (out, length out) /\ are_bytes out /\
    forall rest, readLengths (length l) (bytes_bits out ++ rest) = Ok (l, rest).
Proof.
  induction l as [|x l IH]; intros H.
  - exists []. cbn. repeat split; auto. constructor.
  - inversion_clear H as [|? ? Hx Hl]. destruct (IH Hl) as (out & E & B & R).
    destruct (pack_all x Hx) as (p & n & P1 & P2 & P3 & _ & _ & P4 & P5 & P6 & P7).
    exists (lowBytes n p ++ out). cbn [writeLengths]. rewrite P1. cbn [bind].
    rewrite P6. cbn [bind]. rewrite E. cbn [bind]. split.
    + rewrite app_length, P4. reflexivity.
    + split; [apply Forall_app; split; auto|]. intros rest.
      rewrite bytes_bits_app, <- app_assoc. cbn [length readLengths].
      destruct (P7 (bytes_bits out ++ rest)) as [_ ->]. cbn [bind]. rewrite P2. cbn [bind].
      rewrite R. reflexivity.
Qed.

Lemma bytes48_bytes : forall v, are_bytes (bytes48 v).
Proof. intros. rewrite bytes48_spec. unfold big_endian_6. repeat constructor; unfold is_byte; lia. Qed.

Lemma read48_spec : forall v rest, v < 2 ^ 48 -> absRead48bits (bytes_bits (bytes48 v) ++ rest) = (v, rest).
Proof.
  intros v rest H. unfold absRead48bits. rewrite bytes48_spec. unfold big_endian_6.
  rewrite !bytes_bits_cons. change (bytes_bits []) with (@nil bool). rewrite <- !app_assoc. cbn [app].
  do 6 (rewrite readByte_spec by lia). apply f_equal2; [|reflexivity].
  change (2 ^ 48) with 281474976710656 in H.
  change (2 ^ 40) with 1099511627776. change (2 ^ 32) with 4294967296.
  change (2 ^ 24) with 16777216. change (2 ^ 16) with 65536. change (2 ^ 8) with 256. lia.
Qed.

Lemma Forall_le_sum : forall l b, sumN l < b -> Forall (fun x => x < b) l.
Proof.
  induction l as [|x l IH]; intros b H; constructor; change (sumN (x :: l)) with (x + sumN l) in H; [lia|].
  apply IH. lia.
Qed.

Lemma C29_all : forall lf stats, (1 <= length lf <= 256)%nat -> Forall (fun v => v < 2 ^ 31) lf ->
  (length stats <= 256)%nat -> 0 < sumN stats < 2 ^ 32 ->
  exists sections out,
    writeBlockHeader lf stats = Ok (sections, out, length out) /\ are_bytes out /\
    sumN sections = sumN stats /\ Forall (fun x => 0 < x) sections /\ (1 <= length sections <= 256)%nat /\
    forall compressed following, compressed < 2 ^ 48 ->
      readBlockHeader (bytes_bits (bytes48 compressed ++ out) ++ bytes_bits following) =
        Ok (compressed, lf, sections, bytes_bits following).
Proof.
  intros lf stats L1 V L2 HS. destruct (deduceSections_spec stats HS L2) as (S1 & S2 & S3).
  destruct (C24_all lf L1 V) as (h & n & H1 & H2 & _ & H3 & H4).
  assert (SB : Forall (fun x => x < 2 ^ 56) (deduceSections stats)).
  { apply Forall_le_sum. assert (2 ^ 32 < 2 ^ 56) by reflexivity. lia. }
  destruct (lengths_spec _ SB) as (ls & E & B & R).
  set (k := length (deduceSections stats)) in *.
  set (len := if (k =? 256)%nat then 0 else N.of_nat k mod 256).
  assert (Hlen : len < 256) by (unfold len; destruct (Nat.eqb_spec k 256); lia).
  exists (deduceSections stats), (h ++ len :: ls). unfold writeBlockHeader. rewrite H1. fold k.
  destruct (Nat.leb_spec k 256); [|lia]. rewrite E. cbn [bind]. fold len.
  split; [rewrite app_length; cbn [length]; subst n; do 2 f_equal; lia|].
  split; [apply Forall_app; split; auto; constructor; auto|].
  split; [exact S1|]. split; [exact S2|]. split; [exact S3|].
  intros c following Hc. rewrite bytes_bits_app, <- app_assoc. unfold readBlockHeader.
  rewrite read48_spec by exact Hc. rewrite bytes_bits_app, <- app_assoc, <- bytes_bits_app.
  rewrite H4. rewrite bytes_bits_app, bytes_bits_cons, <- app_assoc. rewrite readByte_spec by exact Hlen.
  replace (N.to_nat (if len =? 0 then 256 else len)) with k.
  - rewrite R. reflexivity.
  - unfold len. destruct (Nat.eqb_spec k 256) as [->|NE]; [reflexivity|].
    rewrite N.mod_small by lia. destruct (N.eqb_spec (N.of_nat k) 0); lia.
Qed.

(** ** Slicing *)
Lemma sliceLoop_spec : forall fuel bs used begin, (0 < bs)%nat -> (begin <= used)%nat -> (used - begin <= fuel)%nat ->
  exists l, sliceLoop fuel bs used begin = Ok l /\
    Forall (fun p => (fst p < used /\ 1 <= snd p <= bs /\ fst p + snd p <= used)%nat) l /\
    (forall A (data : list A), length data = used ->
       concat (map (fun p => firstn (snd p) (skipn (fst p) data)) l) = skipn begin data).
Proof.
  induction fuel as [|f IH]; intros bs used begin Hbs Hb Hf; cbn [sliceLoop].
  - destruct (Nat.ltb_spec begin used); [lia|]. exists []. repeat split; auto.
    intros A data Hd. cbn. rewrite skipn_all2 by lia. reflexivity.
  - destruct (Nat.ltb_spec begin used).
    + set (k := Nat.min bs (used - begin)). assert (1 <= k <= bs /\ begin + k <= used)%nat by (unfold k; lia).
      destruct (IH bs used (begin + k)%nat) as (l & E & F & C); try lia.
      rewrite E. cbn [bind]. exists ((begin, k) :: l). split; [reflexivity|]. split.
      * constructor; [cbn [fst snd]; lia|exact F].
      * intros A data Hd. cbn [map concat fst snd]. rewrite (C A data Hd).
        replace (begin + k)%nat with (k + begin)%nat by lia.
        assert (ES : forall a b (m : list A), skipn (a + b) m = skipn a (skipn b m)).
        { intros a b. revert a. induction b as [|b IHb]; intros a m.
          - rewrite Nat.add_0_r. reflexivity.
          - rewrite Nat.add_succ_r. destruct m; cbn [skipn]; [rewrite skipn_nil; reflexivity|]. apply IHb. }
        rewrite ES. apply firstn_skipn.
    + exists []. repeat split; auto. intros A data Hd. cbn. rewrite skipn_all2 by lia. reflexivity.
Qed.

Lemma C28_all : forall A (data : list A) reserved blockSize, (length data < reserved)%nat ->
  (0 < blockSize)%nat -> N.of_nat blockSize < 2 ^ 31 - 2 ->
  exists l, sliceIntoBlocks (length data) (length data) reserved blockSize = Ok l /\ cuts data l /\
    Forall (fun p => (1 <= snd p <= blockSize /\ fst p + snd p <= length data)%nat) l.
Proof.
  intros A data reserved bs Hr Hb Hm. unfold sliceIntoBlocks.
  destruct (Nat.ltb_spec (length data) reserved); [|lia].
  destruct (N.ltb_spec (N.of_nat bs) (2 ^ 31 - 2)); [|lia]. cbn [andb].
  destruct (sliceLoop_spec (length data) bs (length data) 0) as (l & E & F & C); try lia.
  exists l. split; [exact E|]. split; [apply (C A data eq_refl)|].
  eapply Forall_impl; [|exact F]. cbn. intros; lia.
Qed.

Lemma slice_zero : forall used fuel, (0 < used)%nat -> sliceIntoBlocks fuel used (S used) 0 = Fuel.
Proof.
  intros used fuel H. unfold sliceIntoBlocks.
  destruct (Nat.ltb_spec used (S used)); [|lia]. cbn [andb N.of_nat].
  change (0 <? 2 ^ 31 - 2) with true. cbv iota.
  induction fuel as [|f IH]; cbn [sliceLoop].
  - destruct (Nat.ltb_spec 0 used); [reflexivity|lia].
  - destruct (Nat.ltb_spec 0 used); [|lia]. cbn [Nat.min Nat.add]. rewrite IH. reflexivity.
Qed.

Lemma slice_clamp :
  sliceIntoBlocks 1 1 2 (N.to_nat 4) <> UB /\
  forall used reserved fuel bs, N.of_nat bs = 2 ^ 31 - 2 -> sliceIntoBlocks fuel used reserved bs = UB.
Proof.
  split; [vm_compute; discriminate|].
  intros used reserved fuel bs E. unfold sliceIntoBlocks. rewrite E, N.ltb_irrefl, andb_false_r. reflexivity.
Qed.

Lemma prepareLF_all : forall len sp, 1 <= prepareLFpowers len sp <= 256 /\
  (256 < len -> 1 <= sp <= 256 -> prepareLFpowers len sp = sp) /\
  (len <= 256 -> prepareLFpowers len sp = 1).
Proof.
  intros len sp. unfold prepareLFpowers.
  destruct (N.leb_spec len 256), (N.eqb_spec sp 0), (N.leb_spec sp 256); cbn [orb]; lia.
Qed.

Lemma readLengths_length : forall k s l s', readLengths k s = Ok (l, s') -> length l = k.
Proof.
  induction k as [|k IH]; intros s l s' E; cbn [readLengths] in E.
  - injection E as <- _. reflexivity.
  - destruct (readStillPacked s) as [[p s1]| |]; cbn [bind] in E; try discriminate.
    destruct (unpackInteger p) as [v| |]; cbn [bind] in E; try discriminate.
    destruct (readLengths k s1) as [[l2 s2]| |] eqn:E2; cbn [bind] in E; try discriminate.
    injection E as <- _. cbn [length]. f_equal. eapply IH. exact E2.
Qed.

Lemma readBlockHeader_sections : forall s c lf l s', readBlockHeader s = Ok (c, lf, l, s') -> l <> [].
Proof.
  intros s c lf l s' E. unfold readBlockHeader in E.
  destruct (absRead48bits s) as [c0 s0]. destruct (readHeader s0) as [lf0 s1].
  destruct (readByte s1) as [k s2].
  destruct (readLengths _ s2) as [[l0 s3]| |] eqn:E2; cbn [bind] in E; try discriminate.
  injection E as _ _ <- _. apply readLengths_length in E2. intros ->. cbn [length] in E2.
  destruct (N.eqb_spec k 0); lia.
Qed.

Lemma empty_sections : exists lf out n,
  writeBlockHeader lf (repeat 0 256) = Ok ([], out, n) /\
  forall following c lf' l s,
    readBlockHeader (bytes_bits (bytes48 0 ++ out) ++ bytes_bits following) = Ok (c, lf', l, s) -> l <> [].
Proof.
  exists [1], [0; 0; 0; 0; 2; 0], 6%nat. split; [vm_compute; reflexivity|].
  intros following c lf' l s. apply readBlockHeader_sections.
Qed.

(** Serialisation of the code table (C12). *)
From Coq Require Import List NArith ZArith Lia Arith Bool Permutation Sorted.
From Coq Require Import ZifyBool ZifyNat ZifyN.
From Verif Require Import Base Arrays ModelUtils ModelStreams ModelHeaders ModelHuffman SpecHuffman SpecHeaders.
From Verif Require Import ProofUtils1 ProofUtils2 ProofUtils3 ProofHeaders.
Import ListNotations.
Open Scope nat_scope.

Definition usedFrom (clen : list N) (k : N) : list N :=
  map snd (filter (fun p => 0 <? fst p)%N (combine clen (fromTo k (length clen)))).
Lemma usedFrom_cons : forall l r k, usedFrom (l :: r) k = if (0 <? l)%N then k :: usedFrom r (k + 1) else usedFrom r (k + 1).
Proof. intros l r k. unfold usedFrom. cbn [length fromTo combine filter fst]. destruct (0 <? l)%N; reflexivity. Qed.
Lemma usedFrom_in : forall clen k s, In s (usedFrom clen k) <->
  (k <= s)%N /\ exists l, nth_error clen (N.to_nat (s - k)) = Some l /\ (0 < l)%N.
Proof.
  induction clen as [|x r IH]; intros k s.
  - cbn. split; [intros []|]. intros (_ & l & H & _). destruct (N.to_nat (s - k)); discriminate.
  - rewrite usedFrom_cons.
    assert (R : In s (usedFrom r (k + 1)) <-> (k + 1 <= s)%N /\ exists l, nth_error (x :: r) (N.to_nat (s - k)) = Some l /\ (0 < l)%N).
    { rewrite IH. split; intros (A & l & B & C); (split; [exact A|]); exists l; (split; [|exact C]).
      - replace (N.to_nat (s - k)) with (S (N.to_nat (s - (k + 1)))) by lia. exact B.
      - replace (N.to_nat (s - k)) with (S (N.to_nat (s - (k + 1)))) in B by lia. exact B. }
    destruct (N.ltb_spec 0 x) as [L|L].
    + cbn [In]. rewrite R. split.
      * intros [<-|(A & B)]; [|split; [lia|exact B]]. split; [lia|]. exists x. rewrite N.sub_diag. cbn. auto.
      * intros (A & B). destruct (N.eq_dec k s); [left; auto|right]. split; [lia|exact B].
    + rewrite R. split; intros (A & B); split; auto; [lia|].
      destruct (N.eq_dec s k) as [->|]; [|lia]. destruct B as (l & B & C). rewrite N.sub_diag in B. cbn in B.
      injection B as <-. lia.
Qed.
Lemma usedFrom_sorted : forall clen k, StronglySorted N.lt (usedFrom clen k).
Proof.
  induction clen as [|x r IH]; intros k; [constructor|]. rewrite usedFrom_cons.
  destruct (0 <? x)%N; [|apply IH]. constructor; [apply IH|]. apply Forall_forall. intros s Hs.
  apply usedFrom_in in Hs. lia.
Qed.
Lemma usedFrom_length : forall clen k, length (usedFrom clen k) <= length clen.
Proof. induction clen as [|x r IH]; intros k; [cbn; lia|]. rewrite usedFrom_cons. specialize (IH (k + 1)%N). destruct (0 <? x)%N; cbn [length]; lia. Qed.

Lemma used_in_table : forall clen s, In s (usedSymbols clen) <->
  exists l, nth_error clen (N.to_nat s) = Some l /\ (0 < l)%N.
Proof.
  intros clen s. change (usedSymbols clen) with (usedFrom clen 0). rewrite usedFrom_in, N.sub_0_r.
  split; [intuition|intuition; lia].
Qed.

Lemma maxLength_acc : forall l a, (a <= fold_left N.max l a)%N /\ Forall (fun x => x <= fold_left N.max l a)%N l /\
  (fold_left N.max l a = a \/ In (fold_left N.max l a) l).
Proof.
  induction l as [|x l IH]; intros a; cbn [fold_left].
  - repeat split; auto; lia.
  - destruct (IH (N.max a x)) as (A & B & C). repeat split; [lia|constructor; [lia|exact B]|].
    destruct C as [C|C]; [|right; right; exact C]. rewrite C.
    destruct (N.max_spec a x) as [[_ ->]|[_ ->]]; [right; left; auto|left; auto].
Qed.
Lemma maxLength_spec : forall clen, Forall (fun x => x <= maxLength clen)%N clen.
Proof. intros clen. apply (maxLength_acc clen 0). Qed.
Lemma maxLength_lt : forall clen b, (0 < b)%N -> Forall (fun x => x < b)%N clen -> (maxLength clen < b)%N.
Proof.
  intros clen b Hb F. destruct (maxLength_acc clen 0) as (_ & _ & [C|C]); unfold maxLength; [lia|].
  rewrite Forall_forall in F. apply F. exact C.
Qed.

Lemma unaryLengths_spec : forall clen maxLen symbols, (maxLen < two32)%N ->
  (forall s, In s symbols -> exists l, nth_error clen (N.to_nat s) = Some l /\ (l <= maxLen)%N) ->
  exists bits, unaryLengths clen maxLen symbols = Ok bits /\
  forall clen0 n rest, length clen0 = length clen ->
    exists clen1, readUnaryLengths symbols maxLen clen0 n (bits ++ rest) = Ok (clen1, n + length bits, rest) /\
      length clen1 = length clen /\
      forall i, nth_error clen1 i =
        (if existsb (fun s => N.to_nat s =? i) symbols then nth_error clen i else nth_error clen0 i).
Proof.
  intros clen maxLen symbols HM. induction symbols as [|s r IH]; intros B.
  - exists []. split; [reflexivity|]. intros clen0 n rest L. exists clen0. cbn [readUnaryLengths app length existsb].
    split; [rewrite Nat.add_0_r; reflexivity|]. split; auto.
  - destruct (IH (fun s H => B s (or_intror H))) as (bits & A1 & A2).
    destruct (B s (or_introl eq_refl)) as (l & Hl & Ll).
    exists (unaryCode (N.to_nat (maxLen - l + 1)) ++ bits). split.
    + cbn [unaryLengths]. rewrite (get_ok _ _ _ Hl). cbn [bind]. rewrite A1. reflexivity.
    + intros clen0 n rest L. cbn [readUnaryLengths]. rewrite <- app_assoc, unary_spec by lia.
      replace ((maxLen + two64 - N.of_nat (N.to_nat (maxLen - l + 1)) + 1) mod two32)%N with l.
      2: { rewrite N2Nat.id. replace (maxLen + two64 - (maxLen - l + 1) + 1)%N with (l + two32 * two32)%N by (unfold two64, two32 in *; lia).
           rewrite N.mod_add by (unfold two32; lia). rewrite N.mod_small; lia. }
      assert (SL : N.to_nat s < length clen0) by (rewrite L; eapply nth_error_bound; eauto).
      rewrite set_ok by exact SL. cbn [bind].
      destruct (A2 (upd clen0 (N.to_nat s) l) (n + N.to_nat (maxLen - l + 1)) rest) as (c1 & C1 & C2 & C3).
      { rewrite upd_length. exact L. }
      exists c1. split; [|split; [exact C2|]].
      * rewrite C1. rewrite app_length, unaryCode_length by lia. do 3 f_equal. lia.
      * intros i. rewrite C3. cbn [existsb]. destruct (Nat.eqb_spec (N.to_nat s) i) as [<-|NE].
        -- cbn [orb]. rewrite nth_error_upd_same by exact SL. rewrite Hl. destruct (existsb _ r); reflexivity.
        -- cbn [orb]. rewrite nth_error_upd_other by auto. reflexivity.
Qed.

Lemma last_rev : forall (l : list N) b t, rev l = b :: t -> l = rev t ++ [b].
Proof. intros l b t H. rewrite <- (rev_involutive l), H. reflexivity. Qed.

Lemma sorted_last : forall l b, StronglySorted N.lt (l ++ [b]) -> Forall (fun x => x <= b)%N (l ++ [b]).
Proof.
  induction l as [|x l IH]; intros b H; cbn [app] in *; [repeat constructor; lia|].
  inversion_clear H as [|? ? H1 H2]. constructor; [|apply IH; exact H1].
  rewrite Forall_app in H2. destruct H2 as [_ H2]. inversion_clear H2. lia.
Qed.

Lemma pack_small : forall v, (v < 128)%N -> packInteger v = Ok (v, 1).
Proof.
  intros v Hv. assert (G : forall x, (x < 128)%N -> packInteger x = Ok (x, 1)); [|auto].
  assert (A : forallb (fun k => match packInteger (N.of_nat k) with Ok (p, b) => (p =? N.of_nat k)%N && (b =? 1)
               | _ => false end) (seq 0 128) = true) by (vm_compute; reflexivity).
  rewrite forallb_forall in A. intros x Hx. specialize (A (N.to_nat x)).
  rewrite N2Nat.id in A. specialize (A ltac:(apply in_seq; lia)).
  destruct (packInteger x) as [[p b]| |]; try discriminate. f_equal. f_equal; lia.
Qed.

Lemma shape_all : forall clen, length clen = 256 -> Exists (fun l => 0 < l)%N clen ->
  Forall (fun l => l < 128)%N clen ->
  exists bits, serializeShape clen = Ok bits /\
    forall pad following, pad < 8 -> (length bits + pad) mod 8 = 0 ->
      deserializeShape (bits ++ repeat false pad ++ bytes_bits following) =
        Ok (clen, (length bits + pad) / 8, bytes_bits following).
Proof.
  intros clen L EX F.
  assert (HM : (maxLength clen < 128)%N) by (apply maxLength_lt; [lia|exact F]).
  assert (S : StronglySorted N.lt (usedSymbols clen)) by apply (usedFrom_sorted clen 0).
  assert (SB : forall s, In s (usedSymbols clen) -> (s < 256)%N).
  { intros s Hs. apply used_in_table in Hs. destruct Hs as (l & Hl & _). apply nth_error_bound in Hl. lia. }
  assert (LS : length (usedSymbols clen) <= 256) by (rewrite <- L; apply (usedFrom_length clen 0)).
  destruct (rev (usedSymbols clen)) as [|back t] eqn:ER.
  { exfalso. assert (usedSymbols clen = []) as E by (rewrite <- (rev_involutive (usedSymbols clen)), ER; reflexivity).
    apply Exists_exists in EX. destruct EX as (l & Hl & P). destruct (In_nth_error _ _ Hl) as [i Hi].
    assert (In (N.of_nat i) (usedSymbols clen)) by (apply used_in_table; exists l; rewrite Nat2N.id; auto).
    rewrite E in H. exact H. }
  pose proof (last_rev _ _ _ ER) as EL.
  assert (BK : (back < 256)%N) by (apply SB; rewrite EL; apply in_or_app; right; left; auto).
  assert (NE : usedSymbols clen <> []) by (rewrite EL; destruct (rev t); discriminate).
  destruct (interp_all (usedSymbols clen) back NE S) as (ib & I1 & I2).
  { rewrite EL. rewrite EL in S. apply sorted_last. exact S. } { lia. }
  destruct (unaryLengths_spec clen (maxLength clen) (usedSymbols clen)) as (ub & U1 & U2).
  { unfold two32. lia. }
  { intros s Hs. apply used_in_table in Hs. destruct Hs as (l & Hl & _). exists l. split; [exact Hl|].
    pose proof (maxLength_spec clen) as FM. rewrite Forall_forall in FM. apply FM. eapply nth_error_In; eauto. }
  unfold serializeShape. rewrite ER, (pack_small _ HM). cbn [bind]. rewrite I1. cbn [bind]. rewrite U1. cbn [bind].
  eexists. split; [reflexivity|].
  intros pad following HP H8.
  rewrite !pushBits_be in *. change (1 * 8) with 8 in *.
  rewrite <- !app_assoc. unfold deserializeShape.
  change (be_bits 8) with byte_bits.
  rewrite readByte_spec by exact BK.
  assert (NB : byte_bits (N.of_nat (length (usedSymbols clen))) = byte_bits (N.of_nat (length (usedSymbols clen)) mod 256)).
  { unfold byte_bits. symmetry. apply (be_bits_mod 8 8). lia. }
  rewrite NB. rewrite readByte_spec by (apply N.mod_lt; lia).
  assert (NS : N.to_nat (if (N.of_nat (length (usedSymbols clen)) mod 256 =? 0)%N then 256%N
                else (N.of_nat (length (usedSymbols clen)) mod 256)%N) = length (usedSymbols clen)).
  { assert (length (usedSymbols clen) <> 0) by (rewrite EL, app_length; cbn; lia).
    destruct (Nat.eq_dec (length (usedSymbols clen)) 256) as [->|]; [reflexivity|].
    rewrite N.mod_small by lia. replace (N.of_nat (length (usedSymbols clen)) =? 0)%N with false by lia. lia. }
  rewrite NS.
  cbn [readMaxLen]. rewrite readByte_spec by lia.
  change (64 <=? 0)%N with false. cbv iota.
  replace (N.land (maxLength clen) 128) with 0%N.
  2: { symmetry. apply N.bits_inj. intros i. rewrite N.land_spec, N.bits_0. change 128%N with (2 ^ 7)%N.
       rewrite N.pow2_bits_eqb. destruct (N.eqb_spec 7 i) as [<-|]; [|apply andb_false_r].
       rewrite andb_true_r. rewrite N.testbit_eqb. rewrite N.div_small by (change (2 ^ 7)%N with 128%N; exact HM). reflexivity. }
  change (0 =? 0)%N with true. cbv iota.
  replace (N.lor 0 (N.shiftl (N.land (maxLength clen) 127) 0 mod two64)) with (maxLength clen).
  2: { rewrite N.lor_0_l, N.shiftl_0_r. change 127%N with (N.ones 7). rewrite N.land_ones. change (2 ^ 7)%N with 128%N.
       rewrite (N.mod_small _ 128) by exact HM. rewrite N.mod_small; [reflexivity|]. unfold two64. lia. }
  cbn [bind]. rewrite I2. cbn [bind].
  destruct (U2 (repeat 0%N 256) (16 + 8 + length ib) (repeat false pad ++ bytes_bits following)) as (c1 & C1 & C2 & C3).
  { rewrite repeat_length. auto. }
  rewrite C1. cbn [bind]. rewrite flush_pad by exact HP.
  assert (E1 : c1 = clen).
  { apply nth_error_ext. intros i. rewrite C3. destruct (existsb _ _) eqn:X; [reflexivity|].
    destruct (nth_error clen i) as [l|] eqn:HL.
    - rewrite nth_error_repeat_lt by (apply nth_error_bound in HL; lia).
      destruct (N.eq_dec l 0) as [->|NZ]; [reflexivity|]. exfalso.
      assert (In (N.of_nat i) (usedSymbols clen)) as HI.
      { apply used_in_table. exists l. rewrite Nat2N.id. split; [exact HL|lia]. }
      assert (existsb (fun s => N.to_nat s =? i) (usedSymbols clen) = true); [|congruence].
      apply existsb_exists. exists (N.of_nat i). split; [exact HI|]. lia.
    - apply nth_error_None. apply nth_error_None in HL. rewrite repeat_length. lia. }
  rewrite E1. do 3 f_equal.
  rewrite !app_length, !byte_bits_length in *.
  set (n := length ib) in *. set (m := length ub) in *. clearbody n m.
  pose proof (Nat.div_mod (8 + (8 + (8 + (n + m))) + pad) 8 ltac:(lia)) as D. rewrite H8 in D.
  set (q := (8 + (8 + (8 + (n + m))) + pad) / 8) in *. clearbody q.
  symmetry. apply Nat.div_unique with (r := 7 - pad); lia.
Qed.

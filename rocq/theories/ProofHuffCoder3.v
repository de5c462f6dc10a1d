(** Huffman block: code tables of a section, run lengths, sections, block. *)
From Coq Require Import List NArith ZArith Lia Arith Bool Permutation.
From Coq Require Import ZifyBool ZifyNat ZifyN.
From Verif Require Import Base Arrays ModelUtils ModelRuns SpecRuns ModelStreams ModelHeaders ModelHuffman ModelHuffmanCoder SpecHuffman SpecHeaders.
From Verif Require Import ProofUtils1 ProofUtils2 ProofUtils3 ProofRuns ProofStreams2 ProofHeaders.
From Verif Require Import ProofHuffman3 ProofHuffman4 ProofHuffman5 ProofHuffman6 ProofHuffman7 ProofHuffCoder1 ProofHuffCoder2.
Import ListNotations.
Open Scope nat_scope.

(** ** Code lengths as a table *)
Lemma used_app : forall a b, used (a ++ b) = used a ++ used b.
Proof. intros a b. unfold used. rewrite filter_app, map_app. reflexivity. Qed.
Lemma upd_split : forall (A : Type) (l : list A) i x (v : A), nth_error l i = Some x ->
  l = firstn i l ++ x :: skipn (S i) l /\ upd l i v = firstn i l ++ v :: skipn (S i) l.
Proof.
  induction l as [|y l IH]; intros [|i] x v H; cbn [nth_error] in H; try discriminate.
  - injection H as ->. auto.
  - destruct (IH i x v H) as [P Q]. cbn [firstn skipn app upd]. split; f_equal; assumption.
Qed.
Lemma used_upd : forall clen i l, nth_error clen i = Some 0%N -> (0 < l)%N ->
  Permutation (used (upd clen i l)) (N.to_nat l :: used clen).
Proof.
  intros clen i l H L. destruct (upd_split _ clen i 0%N l H) as [A B]. rewrite B. rewrite A at 3.
  rewrite !used_app, !used_cons. replace (0 <? l)%N with true by lia. cbn [N.ltb]. symmetry. apply Permutation_middle.
Qed.

Lemma fillLengths_spec : forall lens clen, length clen = 256 -> NoDup (map snd lens) ->
  Forall (fun p => (snd p < 256)%N /\ (1 <= fst p)%N) lens ->
  (forall s, In s (map snd lens) -> nth_error clen (N.to_nat s) = Some 0%N) ->
  exists clen', fillLengths clen lens = Ok clen' /\ length clen' = 256 /\
    Permutation (used clen') (map (fun p => N.to_nat (fst p)) lens ++ used clen) /\
    (forall p, In p lens -> nth_error clen' (N.to_nat (snd p)) = Some (fst p)) /\
    (forall i, ~ In i (map (fun p => N.to_nat (snd p)) lens) -> nth_error clen' i = nth_error clen i).
Proof.
  induction lens as [|[l s] lens IH]; intros clen L ND F Z.
  - exists clen. repeat split; auto. intros p [].
  - inversion_clear F as [|? ? [F1 F2] F3]. inversion_clear ND as [|? ? N1 N2]. cbn [fst snd] in *.
    destruct (IH (upd clen (N.to_nat s) l)) as (c' & A1 & A2 & A3 & A4 & A5).
    { rewrite upd_length. exact L. } { exact N2. } { exact F3. }
    { intros s' Hs'. rewrite nth_error_upd_other; [apply Z; right; exact Hs'|lia|].
      destruct (N.eq_dec s s') as [->|]; [contradiction|lia]. }
    exists c'. cbn [fillLengths]. rewrite set_ok by lia. cbn [bind]. split; [exact A1|]. split; [exact A2|].
    split; [|split].
    + rewrite A3. cbn [map fst app]. rewrite (used_upd clen (N.to_nat s) l (Z s (or_introl eq_refl)) ltac:(lia)).
      symmetry. apply Permutation_middle.
    + intros p [<-|Hp]; [|apply A4; exact Hp]. cbn [fst snd]. rewrite A5.
      * apply nth_error_upd_same. lia.
      * intros I. apply in_map_iff in I. destruct I as (q & E & I). apply N1. apply in_map_iff. exists q. split; [lia|exact I].
    + intros i NI. rewrite A5 by (intros I; apply NI; right; exact I). apply nth_error_upd_other; [lia|].
      destruct (Nat.eq_dec (N.to_nat s) i) as [E|]; [exfalso; apply NI; left; exact E|lia].
Qed.

Lemma nonzero_cases : forall freqs, Exists (fun f => 0 < f)%N freqs ->
  (exists before f after, freqs = before ++ f :: after /\ Forall (fun x => x = 0%N) before /\ (0 < f)%N /\ Forall (fun x => x = 0%N) after) \/
  2 <= length (filter (fun f => 0 <? f)%N freqs).
Proof.
  induction freqs as [|x freqs IH]; intros E; [inversion E|].
  destruct (N.ltb_spec 0 x) as [P|P].
  - cbn [filter]. replace (0 <? x)%N with true by lia. cbn [length].
    destruct (filter (fun f => 0 <? f)%N freqs) as [|y t] eqn:Q.
    + left. exists [], x, freqs. split; [reflexivity|]. split; [constructor|]. split; [exact P|].
      apply Forall_forall. intros y Hy. destruct (N.eq_dec y 0); [assumption|exfalso].
      assert (I : In y (filter (fun f => 0 <? f)%N freqs)) by (apply filter_In; split; [exact Hy|lia]). rewrite Q in I. exact I.
    + right. cbn [length]. lia.
  - assert (x = 0%N) as -> by lia. inversion_clear E as [? ? H|? ? H]; [lia|].
    destruct (IH H) as [(b & f & a & -> & B & F & A)|G].
    + left. exists (0%N :: b), f, a. repeat split; auto.
    + right. cbn [filter N.ltb]. exact G.
Qed.

Lemma lens_cases : forall freqs, Exists (fun f => 0 < f)%N freqs -> (sumN freqs < 2 ^ 31)%N ->
  exists lens, calculateHuffmanLengths freqs = Ok lens /\ NoDup (map snd lens) /\
    (forall s, In s (map snd lens) <-> occurs freqs s) /\ Forall (fun p => 1 <= fst p)%N lens /\ Forall (fun p => fst p <= 44)%N lens /\
    (complete (map (fun p => N.to_nat (fst p)) lens) \/ map (fun p => N.to_nat (fst p)) lens = [1]).
Proof.
  intros freqs E S.
  destruct (nonzero_cases freqs E) as [(b & f & a & -> & B & F & A)|G].
    - exists [(1%N, N.of_nat (length b))]. split; [apply single_symbol; assumption|]. cbn [map snd fst].
      split; [constructor; [intros []|constructor]|]. split; [|split; [constructor; [cbn [fst]; lia|constructor]|split; [constructor; [cbn [fst]; lia|constructor]|right; reflexivity]]].
      intros s. split.
      + intros [<-|[]]. exists f. rewrite Nat2N.id, nth_error_app2, Nat.sub_diag by lia. auto.
      + intros (v & V1 & V2). left.
        destruct (lt_eq_lt_dec (N.to_nat s) (length b)) as [[Q|Q]|Q]; [exfalso| lia |exfalso].
        * rewrite nth_error_app1 in V1 by exact Q. apply nth_error_In in V1. rewrite Forall_forall in B. rewrite (B _ V1) in V2. lia.
        * rewrite nth_error_app2 in V1 by lia. replace (N.to_nat s - length b) with (Datatypes.S (N.to_nat s - length b - 1)) in V1 by lia.
          cbn [nth_error] in V1. apply nth_error_In in V1. rewrite Forall_forall in A. rewrite (A _ V1) in V2. lia.
    - assert (S64 : (sumN freqs < two64)%N) by (unfold two64; eapply N.lt_trans; [exact S|reflexivity]).
      destruct (huffman_all freqs G S64) as (lens & A1 & A2 & A3 & A4 & A5 & _).
      exists lens. split; [exact A1|]. split; [exact A2|]. split; [exact A3|]. split; [exact A5|]. split; [|left; exact A4].
      apply (length_bound freqs lens G S64 A1). exact S.
Qed.

Lemma codeTable_lens : forall freqs, length freqs = 256 -> Exists (fun f => 0 < f)%N freqs -> (sumN freqs < 2 ^ 31)%N ->
  exists lens clen, calculateHuffmanLengths freqs = Ok lens /\ fillLengths (repeat 0%N 256) lens = Ok clen /\
    length clen = 256 /\ codeTable clen /\ Forall (fun l => l <= 44)%N clen /\ Exists (fun l => 0 < l)%N clen /\
    (forall s, occurs freqs s -> exists l, nth_error clen (N.to_nat s) = Some l /\ (0 < l)%N).
Proof.
  intros freqs L E S.
  assert (U0 : used (repeat 0%N 256) = []) by (vm_compute; reflexivity).
  pose proof (lens_cases freqs E S) as K.
  destruct K as (lens & A1 & A2 & A3 & A4 & A5 & A6).
  assert (SB : forall s, In s (map snd lens) -> (s < 256)%N).
  { intros s Hs. apply A3 in Hs. destruct Hs as (f & Hf & _). apply nth_error_bound in Hf. lia. }
  destruct (fillLengths_spec lens (repeat 0%N 256)) as (clen & B1 & B2 & B3 & B4 & B5).
  { apply repeat_length. } { exact A2. }
  { apply Forall_forall. intros p Hp. split; [apply SB; apply in_map; exact Hp|]. rewrite Forall_forall in A4. apply A4. exact Hp. }
  { intros s Hs. apply nth_error_repeat_lt. specialize (SB s Hs). lia. }
  rewrite U0, app_nil_r in B3.
  exists lens, clen. split; [exact A1|]. split; [exact B1|]. split; [exact B2|].
  assert (OC : forall s, occurs freqs s -> exists l, nth_error clen (N.to_nat s) = Some l /\ (0 < l)%N).
  { intros s Hs. apply A3 in Hs. apply in_map_iff in Hs. destruct Hs as (p & <- & Hp). exists (fst p). split; [apply B4; exact Hp|].
    rewrite Forall_forall in A4. specialize (A4 p Hp). lia. }
  split; [|split; [|split; [|exact OC]]].
  - destruct A6 as [A6|A6].
    + left. intros H FH. rewrite (kraft_perm _ _ _ B3). apply A6. rewrite <- B3. exact FH.
    + right. rewrite A6 in B3. apply Permutation_length_1_inv. symmetry. exact B3.
  - apply Forall_forall. intros l Hl. destruct (In_nth_error _ _ Hl) as [i Hi].
    destruct (in_dec Nat.eq_dec i (map (fun p => N.to_nat (snd p)) lens)) as [I|NI].
    + apply in_map_iff in I. destruct I as (p & Ep & I). pose proof (B4 p I) as Q. rewrite Ep, Hi in Q. injection Q as ->.
      rewrite Forall_forall in A5. exact (A5 p I).
    + rewrite (B5 i NI) in Hi. apply nth_error_In, repeat_spec in Hi. lia.
  - apply Exists_exists in E. destruct E as (f & If & Pf). destruct (In_nth_error _ _ If) as [i Hi].
    destruct (OC (N.of_nat i)) as (l & Hl & Pl). { exists f. rewrite Nat2N.id. auto. }
    apply Exists_exists. exists l. split; [eapply nth_error_In; exact Hl|exact Pl].
Qed.

(** ** The code made of zeros *)
Lemma above_nil : forall M clen k, Forall (fun l => N.to_nat l <= k) clen -> above M clen k = 0%N.
Proof.
  intros M clen k F. unfold above. induction F as [|l r H F IH]; [reflexivity|]. rewrite used_cons.
  destruct (0 <? l)%N; [|exact IH]. cbn [filter]. replace (k <? N.to_nat l) with false by lia. exact IH.
Qed.
Lemma first_index : forall (l : list N) x, In x l -> exists i, nth_error l i = Some x /\ ~ In x (firstn i l).
Proof.
  induction l as [|y l IH]; intros x H; [destruct H|]. destruct (N.eq_dec y x) as [->|NE].
  - exists 0. split; [reflexivity|intros []].
  - destruct H as [H|H]; [congruence|]. destruct (IH x H) as (i & A & B). exists (S i). split; [exact A|].
    cbn [firstn]. intros [Q|Q]; [congruence|exact (B Q)].
Qed.
Lemma cnt_zero : forall l k, ~ In (N.of_nat k) l -> cnt l k = 0.
Proof.
  induction l as [|x l IH]; intros k H; [reflexivity|]. rewrite cnt_cons. destruct (N.eqb_spec x (N.of_nat k)) as [->|].
  - exfalso. apply H. left. reflexivity.
  - rewrite IH; [reflexivity|]. intros I. apply H. right. exact I.
Qed.
Lemma max_in : forall (l : list N), l <> [] -> exists m, In m l /\ Forall (fun x => x <= m)%N l.
Proof.
  induction l as [|x l IH]; intros H; [congruence|]. destruct l as [|y l].
  - exists x. split; [left; reflexivity|constructor; [lia|constructor]].
  - destruct (IH ltac:(discriminate)) as (m & A & B). destruct (N.le_gt_cases x m).
    + exists m. split; [right; exact A|constructor; assumption].
    + exists x. split; [left; reflexivity|]. constructor; [lia|]. eapply Forall_impl; [|exact B]. cbn beta. intros; lia.
Qed.
Lemma zero_code : forall clen codes, length clen = 256 -> Forall (fun l => (l < 256)%N) clen -> codeTable clen ->
  Exists (fun l => 0 < l)%N clen -> computeHuffmanCodes clen = Ok codes ->
  exists i l, nth_error clen i = Some l /\ (0 < l)%N /\ nth_error codes i = Some 0%N.
Proof.
  intros clen codes L F T E C. destruct (computeHuffmanCodes_spec clen L F T) as (M & codes' & A & B & M256 & FM & HM & S).
  rewrite A in C. injection C as ->.
  destruct (max_in clen) as (m & M1 & M2). { destruct clen; [discriminate|congruence]. }
  assert (MP : (0 < m)%N).
  { apply Exists_exists in E. destruct E as (x & X1 & X2). rewrite Forall_forall in M2. specialize (M2 x X1). lia. }
  destruct (first_index clen m M1) as (i & I1 & I2). exists i, m. split; [exact I1|]. split; [exact MP|].
  destruct (S i m I1) as [_ S2]. destruct (S2 MP) as [S3 _]. rewrite S3.
  rewrite cnt_zero by (rewrite N2Nat.id; exact I2).
  unfold first. rewrite above_nil by (eapply Forall_impl; [|exact M2]; cbn beta; intros; lia).
  rewrite N.div_0_l by (apply N.pow_nonzero; lia). reflexivity.
Qed.

(** ** Codes of the run characters *)
Lemma symbolCodes_spec : forall clen code runseq, length clen = 256 -> length code = 256 ->
  (forall i l c, nth_error clen i = Some l -> nth_error code i = Some c -> (l <= 44)%N /\ ((0 < l)%N -> (c < 2 ^ l)%N)) ->
  Forall (fun s => exists l, nth_error clen (N.to_nat s) = Some l /\ (0 < l)%N) runseq ->
  exists cs, symbolCodes clen code runseq = Ok cs /\ length cs = length runseq /\
    Forall (fun p => fst p <= 57 /\ (snd p < 2 ^ N.of_nat (fst p))%N) cs /\
    wbits clen code runseq (codeBits cs).
Proof.
  intros clen code runseq L1 L2 H. induction runseq as [|s r IH]; intros F.
  - exists []. repeat split; auto. exists []. split; [constructor|reflexivity].
  - inversion_clear F as [|? ? (l & A & B) F']. destruct (IH F') as (cs & C1 & C2 & C3 & (ps & C4 & C5)).
    destruct (nth_error_lt code (N.to_nat s)) as [c D]. { apply nth_error_bound in A. lia. }
    destruct (H _ _ _ A D) as [H1 H2]. specialize (H2 B).
    exists ((N.to_nat l, c) :: cs). cbn [symbolCodes]. rewrite (get_ok _ _ _ A). cbn [bind]. rewrite (get_ok _ _ _ D). cbn [bind].
    rewrite C1. cbn [bind]. split; [reflexivity|]. split; [cbn [length]; lia|]. split.
    + constructor; [|exact C3]. cbn [fst snd]. rewrite N2Nat.id. split; [lia|exact H2].
    + exists (be_bits (N.to_nat l) c :: ps). split.
      * constructor; [|exact C4]. exists l, c. auto.
      * cbn [codeBits flat_map fst snd concat]. fold (codeBits cs). rewrite C5. reflexivity.
Qed.

(** ** Gamma codes of the run lengths *)
Lemma countZeroBits_spec : forall k z r, countZeroBits z (repeat false k ++ true :: r) = (z + k, r).
Proof.
  induction k as [|k IH]; intros z r; cbn [repeat app countZeroBits]; [f_equal; lia|]. rewrite IH. f_equal. lia.
Qed.
Lemma readValueBits_spec : forall k value n r, (value < 2 ^ (64 - N.of_nat k))%N -> k <= 63 ->
  readValueBits k value (be_bits k n ++ r) = ((value * 2 ^ N.of_nat k + n mod 2 ^ N.of_nat k)%N, r).
Proof.
  induction k as [|k IH]; intros value n r V K.
  - cbn [readValueBits be_bits app]. f_equal. change (2 ^ N.of_nat 0)%N with 1%N. rewrite N.mod_1_r. lia.
  - cbn [readValueBits be_bits app readBit].
    assert (P1 : (2 ^ (64 - N.of_nat k) = 2 * 2 ^ (64 - N.of_nat (S k)))%N).
    { rewrite <- N.pow_succ_r'. f_equal. lia. }
    assert (P2 : (2 ^ (64 - N.of_nat k) <= 2 ^ 64)%N) by (apply N.pow_le_mono_r; lia).
    set (b := N.testbit n (N.of_nat k)).
    assert (E : N.lor (N.shiftl value 1 mod two64) (if b then 1 else 0) = (2 * value + N.b2n b)%N).
    { rewrite N.shiftl_mul_pow2. change (2 ^ 1)%N with 2%N. rewrite N.mod_small by (unfold two64; lia).
      rewrite (N.mul_comm value 2). destruct b; cbn [N.b2n].
      - destruct value; reflexivity.
      - rewrite N.lor_0_r. lia. }
    rewrite E. rewrite IH; [|destruct b; cbn [N.b2n]; lia|lia]. f_equal.
    assert (M : (n mod 2 ^ N.of_nat (S k) = N.b2n b * 2 ^ N.of_nat k + n mod 2 ^ N.of_nat k)%N).
    { replace (N.of_nat (S k)) with (N.succ (N.of_nat k)) by lia. rewrite N.pow_succ_r'.
      rewrite (N.mul_comm 2). rewrite N.mod_mul_r by (try apply N.pow_nonzero; lia).
      unfold b. rewrite N.testbit_eqb. rewrite N.add_comm. f_equal. rewrite N.mul_comm. f_equal.
      pose proof (N.mod_lt (n / 2 ^ N.of_nat k) 2 ltac:(lia)) as ML. revert ML. generalize ((n / 2 ^ N.of_nat k) mod 2)%N. intros x ML.
      destruct (N.eqb_spec x 1); cbn [N.b2n]; lia. }
    rewrite M. replace (N.of_nat (S k)) with (N.succ (N.of_nat k)) by lia. rewrite N.pow_succ_r'. lia.
Qed.
Lemma lor_top : forall v k, (v < 2 ^ k)%N -> N.lor v (2 ^ k) = (v + 2 ^ k)%N.
Proof.
  intros v k H. rewrite N.add_nocarry_lxor, N.lxor_lor; auto.
  all: apply N.bits_inj; intros i; rewrite N.land_spec, N.bits_0; destruct (N.eq_dec i k) as [->|NE].
  2, 4: rewrite N.pow2_bits_false by auto; apply andb_false_r.
  all: rewrite <- (N.mod_small v (2 ^ k)) by exact H; rewrite N.mod_pow2_bits_high by lia; reflexivity.
Qed.

Lemma gamma_spec : forall runlen, Forall (fun n => 1 <= n /\ (N.of_nat n < 2 ^ 29)%N) runlen ->
  exists gs, gammaCodes runlen = Ok gs /\ length gs = length runlen /\
    Forall (fun p => fst p <= 57 /\ (snd p < 2 ^ N.of_nat (fst p))%N) gs /\
    forall rest, readRunLengths (length runlen) (codeBits gs ++ rest) = Ok (map N.of_nat runlen, rest).
Proof.
  induction runlen as [|n r IH]; intros F.
  - exists []. repeat split; auto.
  - inversion_clear F as [|? ? [F1 F2] F3]. destruct (IH F3) as (gs & A1 & A2 & A3 & A4).
    assert (E29 : (2 ^ 29 < 2 ^ 64)%N) by reflexivity.
    set (lg := N.log2 (N.of_nat n)) in *.
    assert (LS : (2 ^ lg <= N.of_nat n < 2 ^ N.succ lg)%N) by (apply N.log2_spec; lia).
    assert (LU : (lg < 29)%N) by (apply N.log2_lt_pow2; lia).
    exists ((N.to_nat lg * 2 + 1, N.of_nat n) :: gs). cbn [gammaCodes].
    rewrite (logFloor_spec (N.of_nat n)) by (unfold two64; lia). cbn [bind]. fold lg. rewrite A1. cbn [bind].
    split; [reflexivity|]. split; [cbn [length]; lia|]. split.
    + constructor; [|exact A3]. cbn [fst snd]. split; [lia|].
      eapply N.lt_le_trans; [exact (proj2 LS)|]. apply N.pow_le_mono_r; lia.
    + intros rest. cbn [codeBits flat_map fst snd length readRunLengths]. fold (codeBits gs).
      assert (BE : be_bits (N.to_nat lg * 2 + 1) (N.of_nat n) = repeat false (N.to_nat lg) ++ true :: be_bits (N.to_nat lg) (N.of_nat n)).
      { rewrite (be_bits_lead _ (S (N.to_nat lg))) by (try replace (N.of_nat (S (N.to_nat lg))) with (N.succ lg) by lia; lia).
        f_equal; [f_equal; lia|]. cbn [be_bits]. f_equal. rewrite N2Nat.id. apply N.bit_log2. lia. }
      rewrite BE, <- !app_assoc. cbn [app]. rewrite countZeroBits_spec. cbn [Nat.add].
      rewrite readValueBits_spec by (try apply pow2_pos; lia).
      rewrite N2Nat.id, N.mul_0_l, N.add_0_l. unfold intShl1. replace (lg <=? 30)%N with true by lia. cbn [bind].
      rewrite A4. cbn [bind map]. do 3 f_equal.
      rewrite lor_top by (apply N.mod_lt, N.pow_nonzero; lia).
      rewrite N.pow_succ_r' in LS.
      assert (NM : (N.of_nat n mod 2 ^ lg = N.of_nat n - 2 ^ lg)%N).
      { symmetry. apply (N.mod_unique _ _ 1); lia. }
      rewrite NM. rewrite N.mod_small; [lia|]. assert (2 ^ 29 < two32)%N by reflexivity. lia.
Qed.

Lemma expandRuns_expand : forall runs, expandRuns (map fst runs) (map N.of_nat (map snd runs)) = expand runs.
Proof.
  induction runs as [|[c n] r IH]; [reflexivity|]. unfold expandRuns, expand in *. cbn [map combine flat_map fst snd].
  rewrite Nat2N.id. f_equal. exact IH.
Qed.

(** ** Frequencies *)
Lemma fromTo_nth : forall n lo i, i < n -> nth_error (fromTo lo n) i = Some (lo + N.of_nat i)%N.
Proof.
  induction n as [|n IH]; intros lo i H; [lia|]. destruct i as [|i]; cbn [fromTo nth_error]; [f_equal; lia|].
  rewrite IH by lia. f_equal. lia.
Qed.
Lemma fromTo_length : forall n lo, length (fromTo lo n) = n.
Proof. induction n as [|n IH]; intros lo; cbn [fromTo length]; [reflexivity|]. rewrite IH. reflexivity. Qed.
Lemma fromTo_ge : forall n lo x, In x (fromTo lo n) -> (lo <= x)%N.
Proof. induction n as [|n IH]; intros lo x H; [destruct H|]. destruct H as [<-|H]; [lia|]. apply IH in H. lia. Qed.
Lemma counts_bound : forall n lo l, (sumN (map (fun c => N.of_nat (count_occ N.eq_dec l c)) (fromTo lo n)) <= N.of_nat (length l))%N.
Proof.
  intros n lo l. induction l as [|x l IH].
  - cbn [length count_occ]. clear. revert lo. induction n as [|n IH]; intros lo; [reflexivity|].
    cbn [fromTo map]. unfold sumN in *. cbn [fold_right]. specialize (IH (lo + 1)%N). cbn [N.of_nat] in *. lia.
  - assert (K : forall n lo, (sumN (map (fun c => N.of_nat (count_occ N.eq_dec (x :: l) c)) (fromTo lo n)) <=
        sumN (map (fun c => N.of_nat (count_occ N.eq_dec l c)) (fromTo lo n)) + (if (lo <=? x)%N then 1 else 0))%N).
    { clear. induction n as [|n IH]; intros lo; [cbn; lia|].
      cbn [fromTo map]. unfold sumN in *. cbn [fold_right]. specialize (IH (lo + 1)%N).
      cbn [count_occ]. destruct (N.eq_dec x lo) as [->|NE].
      - replace (lo + 1 <=? lo)%N with false in IH by lia. replace (lo <=? lo)%N with true by lia. cbn [count_occ] in IH. lia.
      - cbn [count_occ] in IH. destruct (N.leb_spec lo x); destruct (N.leb_spec (lo + 1) x); lia. }
    specialize (K n lo). cbn [length]. destruct (lo <=? x)%N; lia.
Qed.

(** No stretch of 2^29 equal bytes. *)
Definition shortRuns (data : list N) : Prop := runs_below (2 ^ 29) data.
Lemma shortRuns_sub : forall a b c, shortRuns (a ++ b ++ c) -> shortRuns b.
Proof.
  intros a b c H x y n z E. unfold shortRuns, runs_below in H. apply (H (a ++ x) y n (z ++ c)). rewrite E, <- !app_assoc. reflexivity.
Qed.
Lemma runs_short : forall runs, Forall (fun r => 1 <= snd r) runs -> shortRuns (expand runs) ->
  Forall (fun n => 1 <= n /\ (N.of_nat n < 2 ^ 29)%N) (map snd runs) /\ length runs <= length (expand runs).
Proof.
  induction runs as [|[c n] r IH]; intros F S; [split; [constructor|reflexivity]|].
  inversion_clear F as [|? ? F1 F2]. cbn [snd] in F1. cbn [expand flat_map fst snd] in *. fold (expand r) in *.
  destruct (IH F2) as [A B]. { apply (shortRuns_sub (repeat c n) (expand r) []). rewrite app_nil_r. exact S. }
  split.
  - cbn [map snd]. constructor; [|exact A]. split; [exact F1|]. apply (S [] c n (expand r)). reflexivity.
  - cbn [length]. rewrite app_length, repeat_length. lia.
Qed.
Lemma expand_in : forall runs s, Forall (fun r => 1 <= snd r) runs -> In s (map fst runs) -> In s (expand runs).
Proof.
  induction runs as [|[c n] r IH]; intros s F H; [destruct H|]. inversion_clear F as [|? ? F1 F2]. cbn [snd] in F1.
  cbn [expand flat_map fst snd]. fold (expand r). apply in_or_app. destruct H as [<-|H]; [left|right; apply IH; assumption].
  cbn [fst]. destruct n; [lia|]. left. reflexivity.
Qed.

(** ** Lengths of what is written *)
Lemma binaryCode_length : forall n lo hi bits, binaryCode n lo hi = Ok bits -> length bits <= 31.
Proof.
  intros n lo hi bits. unfold binaryCode. destruct (N.eqb _ _); [intros E; injection E as <-; cbn; lia|].
  unfold binaryParams. destruct (logCeiling _) as [cl| |]; cbn [bind]; try discriminate.
  unfold intShl1. destruct (N.leb_spec cl 30) as [L|]; cbn [bind]; [|discriminate].
  destruct (N.ltb _ _); [|destruct (N.ltb _ _)]; intros E; injection E as <-; rewrite pushBits_be, be_bits_length; lia.
Qed.
Lemma interpCode_length : forall fuel l lo hi bits, interpCode fuel l lo hi = Ok bits -> length bits <= 31 * length l.
Proof.
  induction fuel as [|f IH]; intros l lo hi bits; destruct l as [|x [|y l]].
  1, 4: cbn [interpCode]; intros E; injection E as <-; cbn; lia.
  1, 3: cbn [interpCode]; destruct (N.eqb _ _); [intros E; injection E as <-; cbn; lia|intros E; apply binaryCode_length in E; cbn [length]; lia].
  - cbn [interpCode]. destruct (N.eqb _ _); [intros E; injection E as <-; cbn; lia|discriminate].
  - remember (x :: y :: l) as q eqn:Q. assert (Q2 : 2 <= length q) by (subst q; cbn [length]; lia).
    assert (U : interpCode (S f) q lo hi =
      if (N.of_nat (length q - 1) =? (hi + two64 - lo) mod two64)%N then Ok [] else
        match skipn ((length q - 1) / 2) q with
        | [] => UB
        | x :: rpart =>
          let! bm := binaryCode x (lo + N.of_nat ((length q - 1) / 2))%N (hi - N.of_nat (length q - 1 - (length q - 1) / 2))%N in
          let! bl := (if (0 <? (length q - 1) / 2) then interpCode f (firstn ((length q - 1) / 2) q) lo (x - 1)%N else Ok []) in
          let! br := interpCode f rpart (x + 1)%N hi in
          Ok (bm ++ bl ++ br)
        end) by (subst q; reflexivity).
    rewrite U. clear U. destruct (N.eqb _ _); [intros E; injection E as <-; cbn; lia|].
    set (h := (length q - 1) / 2). destruct (skipn h q) as [|m rpart] eqn:SK; [discriminate|].
    assert (LL : length (firstn h q) + S (length rpart) = length q).
    { rewrite <- (firstn_skipn h q) at 2. rewrite app_length, SK. reflexivity. }
    destruct (binaryCode _ _ _) as [bm| |] eqn:B1; cbn [bind]; try discriminate. apply binaryCode_length in B1.
    destruct (if 0 <? h then interpCode f (firstn h q) lo (m - 1)%N else Ok []) as [bl| |] eqn:B2; cbn [bind]; try discriminate.
    assert (B2' : length bl <= 31 * length (firstn h q)).
    { destruct (0 <? h); [apply IH in B2; exact B2|injection B2 as <-; cbn; lia]. }
    destruct (interpCode f rpart (m + 1)%N hi) as [br| |] eqn:B3; cbn [bind]; try discriminate. apply IH in B3.
    intros E. injection E as <-. rewrite !app_length. lia.
Qed.

(** What building the wavelet tree gives, and the message read from it. *)
From Coq Require Import List NArith Arith Bool Lia Sorted Permutation.
From Coq Require Import ZifyBool ZifyNat ZifyN.
From Verif Require Import Base Arrays ModelUtils ModelRuns SpecRuns ModelHuffman SpecHuffman ModelHuffmanCoder ModelWavelet SpecWavelet SpecHeaders.
From Verif Require Import ProofUtils2 ProofRuns ProofHuffman4 ProofHuffCoder3.
From Verif Require Import ProofWav1 ProofWav2 ProofWav3 ProofWav4 ProofWav5 ProofWav6 ProofWav7.
Import ListNotations.
Open Scope nat_scope.

Lemma counts_nodup : forall (D : list nat), NoDup D -> forall l (f : nat -> N), (forall n, f n = N.of_nat (count_occ Nat.eq_dec l n)) ->
  (sumFst (map (fun n => (f n, N.of_nat n)) D) <= N.of_nat (length l))%N.
Proof.
  intros D HD l. revert D HD. induction l as [|x l IH]; intros D HD f Hf.
  - cbn [length]. induction D as [|d D IHD]; [cbn; lia|]. cbn [map sumFst fold_right fst]. fold (sumFst (map (fun n => (f n, N.of_nat n)) D)).
    inversion HD; subst. rewrite Hf. cbn [count_occ]. specialize (IHD H2). cbn in IHD |- *. lia.
  - set (g := fun n => N.of_nat (count_occ Nat.eq_dec l n)).
    specialize (IH D HD g (fun _ => eq_refl)). cbn [length].
    assert (G : (sumFst (map (fun n => (f n, N.of_nat n)) D) <= sumFst (map (fun n => (g n, N.of_nat n)) D) +
      (if in_dec Nat.eq_dec x D then 1 else 0))%N).
    { clear IH. induction D as [|d D IHD]; [cbn; lia|]. inversion HD; subst. specialize (IHD H2).
      unfold sumFst in *. cbn [map fold_right fst] in *. rewrite Hf. unfold g at 1.
      cbn [count_occ]. destruct (Nat.eq_dec x d) as [->|NE].
      - destruct (in_dec Nat.eq_dec d (d :: D)) as [_|C]; [|elim C; left; reflexivity].
        destruct (in_dec Nat.eq_dec d D) as [C|_]; [contradiction|]. lia.
      - destruct (in_dec Nat.eq_dec x (d :: D)) as [C|C]; destruct (in_dec Nat.eq_dec x D) as [C'|C']; try lia.
        elim C. right. exact C'. }
    destruct (in_dec Nat.eq_dec x D); lia.
Qed.

Lemma runs_length_in : forall runs r, In r runs -> snd r <= length (expand runs).
Proof.
  induction runs as [|q runs IH]; [intros r []|]. intros r [<-|H]; cbn [expand flat_map]; fold (expand runs); rewrite app_length, repeat_length; [lia|].
  specialize (IH r H). lia.
Qed.
Lemma runs_count : forall runs, Forall (fun r => 1 <= snd r) runs -> length runs <= length (expand runs).
Proof.
  induction 1 as [|r runs H _ IH]; [cbn; lia|]. cbn [expand flat_map length]. fold (expand runs). rewrite app_length, repeat_length. lia.
Qed.
Lemma expand_concat : forall runs, concat (map (fun r : N * nat => repeat (fst r) (snd r)) runs) = expand runs.
Proof. intros. unfold expand. symmetry. apply flat_map_concat_map. Qed.

(** The tables with sizes: the byte table is [CL], the run length table [L]. *)
Record tables (codes : list (N * list bool)) (T0 : wtree) (CL : list (N * N)) (intTree : wtree) (intCodes : list (N * list bool)) (L : list (N * N)) : Prop := mkTables {
  tb_assign : assignPrefixCodes CL = Ok T0;
  tb_collect : collectCodes T0 = Ok codes;
  tb_code : code_tree T0 codes;
  tb_dense : dense T0;
  tb_sizes : sizesOf codes = CL;
  tb_sorted : StronglySorted pairLe CL;
  tb_nodup : NoDup (map snd CL);
  tb_range : Forall (fun p => 1 <= fst p <= 44 /\ snd p < 256)%N CL;
  tb_nonempty : CL <> [];
  tb_int : integerTree L = Ok (intTree, intCodes);
  tb_table : intTable intTree intCodes;
  tb_lengths : L = [] /\ intTree = leaf 0 /\ intCodes = [(0%N, [])] \/
    lengths_good L /\ sizesOf intCodes = L /\ (exists x, In x (map snd L) /\ 0 < x)%N
}.

Record built (src : list N) (w : wavelet) (T0 : wtree) (runs : list (N * nat)) (ws : list word) (CL L : list (N * N)) : Prop := mkBuilt {
  b_runs : is_runs_of src runs;
  b_tables : tables (w_codes w) T0 CL (w_intTree w) (w_intCodes w) L;
  b_values : forall x, In x (map snd L) -> (x <= N.of_nat (length src))%N /\ (x <> 0%N -> In (N.to_nat x) (map snd runs));
  b_count : length L <= S (length src);
  b_W : (w_W w <= 15)%N;
  b_words : runWords T0 (w_intTree w) (w_W w) runs ws;
  b_look : forall q, look (w_root w) q = stored T0 ws q;
  b_full : dense (w_root w);
  b_used : forall s, In s (map fst (w_codes w)) -> In s (map fst runs)
}.

Lemma char_table : forall lens, NoDup (map snd lens) -> Forall (fun p => 1 <= fst p <= 44 /\ snd p < 256)%N lens ->
  complete (map (fun p => N.to_nat (fst p)) lens) \/ map (fun p => N.to_nat (fst p)) lens = [1] ->
  exists T0 codes, assignPrefixCodes (sortPairs lens) = Ok T0 /\ collectCodes T0 = Ok codes /\ code_tree T0 codes /\ dense T0 /\
    sizesOf codes = sortPairs lens.
Proof.
  intros lens HN HR HC. pose proof (sortPairs_perm lens) as P.
  destruct HC as [HC|HC].
  - destruct (table_full (sortPairs lens)) as (l & r & codes & E1 & E2 & Hl & Hr & E3 & E4).
    + apply sortPairs_sorted.
    + eapply Forall_impl; [|eapply Permutation_Forall; [symmetry; exact P|exact HR]]. cbn. intros; lia.
    + unfold natLengths. eapply complete_perm; [|exact HC]. apply Permutation_map. symmetry. exact P.
    + apply ProofHuffman6.maxLength_lt; [reflexivity|]. rewrite Forall_map.
      eapply Forall_impl; [|eapply Permutation_Forall; [symmetry; exact P|exact HR]]. cbv beta. intros p [[_ Hp] _].
      eapply N.le_lt_trans; [exact Hp|reflexivity].
    + exists (inner l r), codes. split; [exact E1|]. split; [exact E2|]. split; [exact E3|].
      split; [apply dense_code_tree; assumption|exact E4].
  - destruct lens as [|[a s] [|q lens]]; try discriminate. cbn in HC. injection HC as HC.
    assert (a = 1%N) by lia. subst a. destruct (table_single s) as (E1 & E2 & E3 & E4).
    exists (inner (leaf s) Empty), [(s, [false])]. split; [exact E1|]. split; [exact E2|]. split; [exact E3|].
    split; [apply dense_single|exact E4].
Qed.

Lemma bind_inv : forall {A B} (m : outcome A) (f : A -> outcome B) b, bind m f = Ok b -> exists a, m = Ok a /\ f a = Ok b.
Proof. intros A B [a| |] f b H; [eauto|discriminate|discriminate]. Qed.

Lemma build_parts : forall worth src w, buildTree worth src = Ok w ->
  exists freqs lens n lns T0 runs W L intTree intCodes codes root,
    calculateRunsAndCharacters (fun _ => 0%N) src (fun _ => 0%N) = Ok (freqs, lens, n) /\
    calculateHuffmanLengths (countersArray freqs) = Ok lns /\ assignPrefixCodes (sortPairs lns) = Ok T0 /\
    emittedRuns src = Ok runs /\ findParameters worth (distribution lens runs) (N.of_nat n) = Ok (W, L) /\
    integerTree L = Ok (intTree, intCodes) /\ collectCodes T0 = Ok codes /\ pushRuns codes intCodes W T0 runs = Ok root /\
    w = mkWavelet root codes intTree intCodes W.
Proof.
  intros worth src w H. unfold buildTree in H.
  apply bind_inv in H. destruct H as ([[freqs lens] n] & E0 & H).
  apply bind_inv in H. destruct H as (lns & E1 & H).
  apply bind_inv in H. destruct H as (T0 & E2 & H).
  apply bind_inv in H. destruct H as (runs & E3 & H).
  apply bind_inv in H. destruct H as ([W L] & E4 & H).
  apply bind_inv in H. destruct H as ([intTree intCodes] & E5 & H).
  apply bind_inv in H. destruct H as (codes & E6 & H).
  apply bind_inv in H. destruct H as (root & E7 & H).
  injection H as <-. exists freqs, lens, n, lns, T0, runs, W, L, intTree, intCodes, codes, root.
  exact (conj E0 (conj E1 (conj E2 (conj E3 (conj E4 (conj E5 (conj E6 (conj E7 eq_refl)))))))).
Qed.

Lemma build_spec : forall worth src w, src <> [] -> Forall (fun c => c < 256)%N src -> (N.of_nat (length src) < 2 ^ 31)%N ->
  buildTree worth src = Ok w -> exists T0 runs ws CL L, built src w T0 runs ws CL L.
Proof.
  intros worth src w NE AB LN HB.
  destruct (build_parts worth src w HB) as (freqs0 & lens0 & n0 & lns0 & T00 & runs0 & W & L & intTree0 & intCodes0 & codes0 & root0 &
    S1 & S2 & S3 & S4 & EF & S6 & S7 & S8 & Sw). clear HB.
  destruct (run_counters_all (fun _ => 0%N) (fun _ => 0%N) src NE) as (runs & f1 & freqs & lens & (R1 & R2 & R3) & _ & R4 & _ & R5 & R6).
  rewrite R4 in S1. injection S1 as <- <- <-.
  destruct (emittedRuns_spec src NE) as (runs' & R7 & R8).
  assert (runs' = runs) by (eapply is_runs_of_unique; [exact R8|]; split; [exact R1|split; assumption]). subst runs'.
  assert (RNE : runs <> []) by (intros ->; cbn in R1; congruence).
  assert (RC : Forall (fun c => c < 256)%N (map fst runs)).
  { apply Forall_forall. intros c Hc. rewrite Forall_forall in AB. apply AB. rewrite <- R1. apply expand_in; assumption. }
  pose proof (runs_count runs R3) as RL. rewrite R1 in RL.
  remember (countersArray freqs) as F eqn:HF0.
  assert (FL : length F = 256) by (rewrite HF0; unfold countersArray; rewrite map_length; apply fromTo_length).
  assert (FN : forall c, (c < 256)%N -> nth_error F (N.to_nat c) = Some (freqs c)).
  { intros c Hc. rewrite HF0; unfold countersArray. erewrite map_nth_error; [reflexivity|]. rewrite fromTo_nth by lia. f_equal. lia. }
  assert (FS : (sumN F < 2 ^ 31)%N).
  { pose proof (counts_bound 256 0 (map fst runs)) as B. rewrite map_length in B.
    rewrite HF0; unfold countersArray. erewrite map_ext; [|exact R5]. cbn [N.add]. eapply N.le_lt_trans; [exact B|]. lia. }
  assert (OCC : forall c, In c (map fst runs) -> occurs F c).
  { intros c Hc. exists (freqs c). rewrite Forall_forall in RC. split; [apply FN, RC, Hc|].
    rewrite R5. pose proof (proj1 (count_occ_In N.eq_dec (map fst runs) c) Hc). lia. }
  assert (FE : Exists (fun f => 0 < f)%N F).
  { destruct runs as [|[c n] runs]; [congruence|]. destruct (OCC c (or_introl eq_refl)) as (f & Hf & Pf).
    apply Exists_exists. exists f. split; [eapply nth_error_In; exact Hf|exact Pf]. }
  destruct (lens_cases F FE FS) as (lns & A1 & A2 & A3 & A4 & A5 & A6).
  assert (AR : Forall (fun p => 1 <= fst p <= 44 /\ snd p < 256)%N lns).
  { apply Forall_forall. intros p Hp. rewrite Forall_forall in A4, A5. specialize (A4 p Hp). specialize (A5 p Hp).
    split; [lia|]. assert (In (snd p) (map snd lns)) as HS by (apply in_map; exact Hp). apply A3 in HS. destruct HS as (f & Hf & _).
    apply nth_error_bound in Hf. lia. }
  destruct (char_table lns A2 AR A6) as (T0 & codes & B1 & B2 & B3 & B4 & B5).
  rewrite A1 in S2. injection S2 as <-. rewrite B1 in S3. injection S3 as <-. rewrite R7 in S4. injection S4 as <-.
  assert (DN : map snd (distribution lens runs) = map N.of_nat (nodup Nat.eq_dec (map snd runs))).
  { unfold distribution. rewrite map_map. reflexivity. }
  assert (DIN : forall p, In p (distribution lens runs) -> exists n, In n (map snd runs) /\ p = (lens n, N.of_nat n)).
  { intros p Hp. unfold distribution in Hp. apply in_map_iff in Hp. destruct Hp as (n & <- & Hn). apply nodup_In in Hn. eauto. }
  assert (R3' : forall n, In n (map snd runs) -> 1 <= n <= length src).
  { intros n Hn. apply in_map_iff in Hn. destruct Hn as (r & <- & Hr). pose proof (runs_length_in runs r Hr) as B. rewrite R1 in B.
    rewrite Forall_forall in R3. specialize (R3 r Hr). lia. }
  assert (DS : (sumFst (distribution lens runs) <= N.of_nat (length runs))%N).
  { rewrite <- (map_length snd runs). unfold distribution. apply counts_nodup; [apply NoDup_nodup|]. intros n. rewrite R6. lia. }
  destruct (findParameters_spec worth (distribution lens runs) (N.of_nat (length runs)) W L) as [HW HL].
  { rewrite DN. apply FinFun.Injective_map_NoDup; [intros a b; apply Nat2N.inj|apply NoDup_nodup]. }
  { apply Forall_forall. intros p Hp. destruct (DIN p Hp) as (n & Hn & ->). cbn [fst]. rewrite R6.
    pose proof (proj1 (count_occ_In Nat.eq_dec (map snd runs) n) Hn). lia. }
  { apply Forall_forall. intros p Hp. destruct (DIN p Hp) as (n & Hn & ->). cbn [snd]. specialize (R3' n Hn). lia. }
  { change (2 ^ 31)%N with 2147483648%N in LN. unfold two64. lia. }
  { exact EF. }
  assert (VAL : forall x, In x (map snd L) -> (x <= N.of_nat (length src))%N /\ (x <> 0%N -> In (N.to_nat x) (map snd runs))).
  { intros x Hx. destruct HL as [->|(_ & _ & HL)]; [destruct Hx|]. destruct (HL x Hx) as [->|Hx']; [split; [lia|congruence]|].
    rewrite DN in Hx'. apply in_map_iff in Hx'. destruct Hx' as (n & <- & Hn). apply nodup_In in Hn. rewrite Nat2N.id. specialize (R3' n Hn). split; [lia|auto]. }
  assert (LL : length L <= S (length src)).
  { destruct HL as [->|((_ & _ & _ & HL & _) & _)]; [cbn; lia|]. rewrite <- (map_length snd L).
    assert (IC : incl (map snd L) (fromTo 0 (S (length src)))).
    { intros x Hx. destruct (VAL x Hx) as [V _]. apply nth_error_In with (n := N.to_nat x). rewrite fromTo_nth by lia. f_equal. lia. }
    pose proof (NoDup_incl_length HL IC) as B. rewrite fromTo_length in B. exact B. }
  destruct (integerTree_spec (distribution lens runs) L) as (intTree & intCodes & I1 & I2 & I3 & I4).
  { change (2 ^ 31)%N with 2147483648%N in LN. unfold two64. lia. } { exact HL. }
  rewrite I1 in S6. injection S6 as <- <-. rewrite B2 in S7. injection S7 as <-.
  destruct (pushed_tree T0 codes intTree intCodes W runs B3 B4 I2 HW) as (ws & T & P1 & P2 & P3 & P4).
  { apply Forall_forall. intros r Hr. rewrite <- sizes_symbols, B5.
    eapply Permutation_in; [apply Permutation_map; symmetry; apply sortPairs_perm|]. apply A3, OCC, in_map, Hr. }
  { apply Forall_forall. intros r Hr. specialize (R3' (snd r) (in_map snd _ _ Hr)).
    change (2 ^ 31)%N with 2147483648%N in LN. change (2 ^ 32)%N with 4294967296%N. lia. }
  rewrite P1 in S8. injection S8 as <-. subst w.
  exists T0, runs, ws, (sortPairs lns), L. constructor; cbn [w_codes w_intTree w_intCodes w_W w_root]; auto.
  { constructor; auto.
    + apply sortPairs_sorted.
    + eapply Permutation_NoDup; [apply Permutation_map; symmetry; apply sortPairs_perm|exact A2].
    + eapply Permutation_Forall; [symmetry; apply sortPairs_perm|exact AR].
    + intros C. pose proof (Permutation_length (sortPairs_perm lns)) as PL. rewrite C in PL. destruct lns; [|discriminate].
      destruct A6 as [A6|A6]; [|discriminate]. destruct runs as [|[c n] runs]; [congruence|].
      specialize (proj2 (A3 c) (OCC c (or_introl eq_refl))). intros [].
    + destruct HL as [->|(G & G0 & GX)]; [left; destruct (I3 eq_refl) as [-> ->]; auto|].
      right. split; [exact G|]. destruct G as (G1 & G2 & G3 & G4 & G5).
      split; [apply I4; intros ->; cbn in G5; lia|].
      destruct L as [|[a x] [|[b y] L]]; cbn in G5; try lia. cbn in G4. inversion G4 as [|? ? N1 N2]; subst.
      destruct (N.eq_dec x 0) as [->|NX].
      * exists y. split; [right; left; reflexivity|]. assert (y <> 0%N) by (intros ->; apply N1; left; reflexivity). lia.
      * exists x. split; [left; reflexivity|]. cbn. lia. }
  intros s Hs. rewrite <- sizes_symbols, B5 in Hs. apply (Permutation_in _ (Permutation_map snd (sortPairs_perm lns))) in Hs.
  apply A3 in Hs. destruct Hs as (f & Hf & Pf). assert (Hs : (s < 256)%N) by (apply nth_error_bound in Hf; lia).
  rewrite (FN s Hs) in Hf. injection Hf as <-. rewrite R5 in Pf. apply (count_occ_In N.eq_dec). lia.
Qed.

(** ** Facts about the tree *)
Lemma built_columns : forall src w T0 runs ws CL L, built src w T0 runs ws CL L ->
  forall q b s, In (b :: s) (ends q (wordsOf ws)) -> exists n, look (w_root w) q = Some n /\ bitVector n = heads (ends q (wordsOf ws)).
Proof.
  intros src w T0 runs ws CL L HB q b s H. rewrite (b_look _ _ _ _ _ _ _ HB). unfold stored, wordsOf in *. destruct (look T0 q) as [n|].
  - eexists. split; [reflexivity|reflexivity].
  - destruct (ends q (map fst ws)); [destruct H|]. eexists. split; reflexivity.
Qed.
Lemma built_symbols : forall src w T0 runs ws CL L, built src w T0 runs ws CL L ->
  forall q n (s : list bool), look T0 q = Some n -> In s (ends q (wordsOf ws)) -> exists n', look (w_root w) q = Some n' /\ symbol n' = symbol n.
Proof.
  intros src w T0 runs ws CL L HB q n s E _. rewrite (b_look _ _ _ _ _ _ _ HB). unfold stored. rewrite E. eexists. split; reflexivity.
Qed.

Lemma symOf_in : forall q ws, In q (map fst ws) -> exists w, In w ws /\ fst w = q /\ symOf q ws = Some (snd w).
Proof.
  intros q ws H. unfold symOf. match goal with |- context [find ?f ws] => destruct (find f ws) as [w|] eqn:E end.
  - apply find_some in E. destruct E as [E1 E2]. destruct (list_eq_dec bool_dec (fst w) q); [|discriminate]. eauto.
  - exfalso. apply in_map_iff in H. destruct H as (w & <- & Hw). apply (find_none _ _ E) in Hw.
    destruct (list_eq_dec bool_dec (fst w) (fst w)); congruence.
Qed.

(** A word determines its run length. *)
Lemma intWord_value : forall t W x y ic, full t -> x <> 0%N -> y <> 0%N -> intWord t W x ic -> intWord t W y ic -> x = y.
Proof.
  assert (MIX : forall t W x y ic, full t -> look t ic = Some (mkNode [] (Some x)) -> 
     (exists esc k v, look t esc = Some (mkNode [] (Some 0%N)) /\ k <= 32 /\ ic = esc ++ repeat true k ++ false :: be_bits (k + N.to_nat W) v /\
       (v < 2 ^ N.of_nat (k + N.to_nat W))%N /\ y = (v + 1 + 2 ^ W * (2 ^ N.of_nat k - 1))%N) -> False).
  { intros t W x y ic HF H1 (esc & k & v & L1 & _ & -> & _). destruct k; cbn [repeat app] in H1; rewrite (full_leaf_end _ HF _ _ _ _ L1) in H1; discriminate. }
  intros t W x y ic HF X0 Y0 [H1|H1] [H2|H2].
  - congruence.
  - exfalso. eapply MIX; eauto.
  - exfalso. eapply MIX; eauto.
  - destruct H1 as (esc & k & v & L1 & L2 & L3 & L4 & L5). destruct H2 as (esc' & k' & v' & M1 & M2 & M3 & M4 & M5). subst ic.
    assert (esc = esc' /\ repeat true k ++ false :: be_bits (k + N.to_nat W) v = repeat true k' ++ false :: be_bits (k' + N.to_nat W) v') as [<- E].
    { apply common_prefix in M3. destruct M3 as [([|b e] & E1 & E2)|([|b e] & E1 & E2)]; try rewrite app_nil_r in E1.
      - auto.
      - rewrite E1 in M1. rewrite (full_leaf_end _ HF _ _ _ _ L1) in M1. discriminate.
      - auto.
      - rewrite E1 in L1. rewrite (full_leaf_end _ HF _ _ _ _ M1) in L1. discriminate. }
    assert (E' : repeat true k ++ false :: be_bits (k + N.to_nat W) v = (repeat true k' ++ false :: be_bits (k' + N.to_nat W) v') ++ [])
      by (rewrite app_nil_r; exact E).
    apply ones_prefix in E'. destruct E' as [<- E']. rewrite app_nil_r in E'. apply (f_equal be_val) in E'.
    rewrite !be_bits_val in E' by assumption. subst v'. congruence.
Qed.

Lemma built_lengths : forall src w T0 runs ws CL L, built src w T0 runs ws CL L -> lengthsShown T0 (w_intTree w) (w_W w) (wordsOf ws) (w_root w).
Proof.
  intros src w T0 runs ws CL L HB c x cc ic Hin HL HI X0. unfold wordsOf in *.
  pose proof (tb_code _ _ _ _ _ _ (b_tables _ _ _ _ _ _ _ HB)) as HC.
  pose proof (intTable_full _ _ (tb_table _ _ _ _ _ _ (b_tables _ _ _ _ _ _ _ HB))) as HF.
  pose proof (b_words _ _ _ _ _ _ _ HB) as HR.
  assert (NP : noPrefix (map fst ws)) by (eapply runWords_noPrefix; [exact HC|exact HF|eapply runWords_all; exact HR]).
  assert (OUT : forall u, u <> [] -> look T0 (cc ++ u) = None).
  { intros [|b u] H; [congruence|]. eapply ct_beyond; [exact HC|exact HL]. }
  split.
  - intros u b v Hu E. rewrite (b_look _ _ _ _ _ _ _ HB). unfold stored. rewrite (OUT u Hu).
    assert (In (b :: v) (ends (cc ++ u) (map fst ws))) as H by (apply ends_in; rewrite <- app_assoc, <- E; exact Hin).
    destruct (ends (cc ++ u) (map fst ws)) eqn:EE; [destruct H|]. eexists. split; [reflexivity|]. cbn [symbol].
    unfold symOf. match goal with |- context [find ?f ws] => destruct (find f ws) as [w'|] eqn:EF end; [|reflexivity]. exfalso. apply find_some in EF. destruct EF as [F1 F2].
    destruct (list_eq_dec bool_dec (fst w') (cc ++ u)) as [F3|]; [|discriminate].
    assert (G : In (cc ++ u) (map fst ws)) by (rewrite <- F3; apply in_map; exact F1).
    rewrite E, app_assoc in Hin. specialize (NP _ _ G Hin). discriminate.
  - assert (NI : ic <> []).
    { intros ->. rewrite app_nil_r in Hin. destruct HI as [HI|(esc & k & v & _ & _ & E & _)]; [|destruct esc, k; discriminate].
      pose proof (runWords_all _ _ _ _ _ HR) as HA. rewrite Forall_forall in HA. destruct (HA _ Hin) as (c' & x' & cc' & ic' & E1 & E2 & E3 & E4 & E5).
      destruct ic' as [|b ic']; [congruence|]. rewrite E1 in HL. rewrite (ct_beyond _ _ HC _ _ _ _ E2) in HL. discriminate. }
    rewrite (b_look _ _ _ _ _ _ _ HB). unfold stored. rewrite (OUT ic NI).
    assert (In [] (ends (cc ++ ic) (map fst ws))) as H by (apply ends_in; rewrite app_nil_r; exact Hin).
    destruct (ends (cc ++ ic) (map fst ws)) eqn:EE; [destruct H|]. eexists. split; [reflexivity|]. cbn [symbol].
    destruct (symOf_in _ _ Hin) as (w' & W1 & W2 & W3). rewrite W3. f_equal.
    assert (G : exists c', runWord T0 (w_intTree w) (w_W w) c' (snd w') (fst w')).
    { clear - HR W1. induction HR as [|r w0 runs0 ws0 [A1 A2] _ IH]; [destruct W1|]. destruct W1 as [->|W1]; [|auto]. rewrite A2. eauto. }
    destruct G as (c' & cc' & ic' & E1 & E2 & E3 & E4 & E5). rewrite W2 in E1.
    assert (ic' = ic) as ->.
    { apply common_prefix in E1. destruct E1 as [([|b e] & F1 & F2)|([|b e] & F1 & F2)]; cbn [app] in F2; auto.
      - rewrite F1 in E2. rewrite (ct_beyond _ _ HC _ _ _ _ HL) in E2. discriminate.
      - rewrite F1 in HL. rewrite (ct_beyond _ _ HC _ _ _ _ E2) in HL. discriminate. }
    eapply intWord_value; eassumption.
Qed.

Lemma built_bounds : forall src runs, is_runs_of src runs -> Forall (fun c => c < 256)%N src -> (N.of_nat (length src) < 2 ^ 31)%N ->
  Forall (fun r => (fst r < 256)%N /\ (N.of_nat (snd r) < 2 ^ 32)%N) runs.
Proof.
  intros src runs (R1 & R2 & R3) AB LN. apply Forall_forall. intros r Hr. split.
  - rewrite Forall_forall in AB. apply AB. rewrite <- R1. apply expand_in; [exact R3|apply in_map; exact Hr].
  - pose proof (runs_length_in runs r Hr) as B. rewrite R1 in B. change (2 ^ 31)%N with 2147483648%N in LN. change (2 ^ 32)%N with 4294967296%N. lia.
Qed.

Lemma C20_all : forall worth src w, src <> [] -> Forall (fun c => c < 256)%N src -> (N.of_nat (length src) < 2 ^ 31)%N ->
  buildTree worth src = Ok w -> message w (w_root w) = Ok src.
Proof.
  intros worth src w NE AB LN HB. destruct (build_spec worth src w NE AB LN HB) as (T0 & runs & ws & CL & L & B).
  pose proof (b_runs _ _ _ _ _ _ _ B) as R. pose proof (b_tables _ _ _ _ _ _ _ B) as TB.
  rewrite <- (proj1 R), <- expand_concat. destruct w as [root codes intTree intCodes W]. cbn [w_root].
  eapply (message_built T0 codes intTree intCodes W runs ws root).
  - apply (tb_code _ _ _ _ _ _ TB).
  - eapply intTable_full. apply (tb_table _ _ _ _ _ _ TB).
  - apply (b_W _ _ _ _ _ _ _ B).
  - apply (b_words _ _ _ _ _ _ _ B).
  - intros ->. apply NE. rewrite <- (proj1 R). reflexivity.
  - eapply built_bounds; eassumption.
  - exact (built_columns _ _ _ _ _ _ _ B).
  - exact (built_symbols _ _ _ _ _ _ _ B).
  - exact (built_lengths _ _ _ _ _ _ _ B).
Qed.

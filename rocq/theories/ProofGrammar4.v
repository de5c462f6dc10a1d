(** Writing and reading grammars and precompressor block headers: C30, C31. *)
From Coq Require Import List NArith ZArith Lia Arith Bool.
From Coq Require Import ZifyBool ZifyNat ZifyN.
From Verif Require Import Base Arrays TArray ModelUtils ModelStreams ModelHeaders ProofUtils1 ProofUtils3 ProofHeaders ModelGrammar ProofGrammar1 SpecGrammar ProofGrammar2 ProofGrammar3.
Import ListNotations.
Open Scope N_scope.

Lemma layout_length : forall rules pos, length (layout pos rules) = length rules.
Proof. induction rules as [|(k, s) rules IH]; intros pos; cbn; auto. Qed.
Lemma layout_flags : forall rules pos, map r_large (layout pos rules) = map (fun r => isTwo (fst r)) rules.
Proof. induction rules as [|(k, s) rules IH]; intros pos; cbn; f_equal; auto. Qed.
Lemma layout_widths : forall rules pos,
  fold_right (fun r k => ((if r_large r then 2 else 1) + k)%nat) O (layout pos rules) =
  length (concat (map (fun r => symBytes (fst r)) rules)).
Proof.
  induction rules as [|(k, s) rules IH]; intros pos; [reflexivity|]. cbn [layout fold_right map concat fst r_large].
  rewrite app_length, IH. destruct k; reflexivity.
Qed.
Lemma concat_bytes : forall rules : list (sym * list N),
  (forall k side, In (k, side) rules -> (2 <= length side <= 4)%nat /\ are_bytes side) -> are_bytes (concat (map snd rules)).
Proof.
  intros rules H. apply Forall_concat. apply Forall_map. apply Forall_forall. intros (k, side) I. apply (H k side I).
Qed.
Lemma lhs_bytes : forall specials rules bound, keysOk specials rules bound -> are_bytes specials ->
  are_bytes (concat (map (fun r => symBytes (fst r)) rules)).
Proof.
  intros specials rules bound (H1 & H2) B. apply Forall_concat. apply Forall_map. apply Forall_forall. intros (k, side) I. cbn [fst].
  unfold are_bytes in B. rewrite Forall_forall in B. destruct k as [c|a b]; cbn [symBytes].
  - repeat constructor. apply (H1 c side I).
  - destruct (H2 a b side I) as (i & j & Ea & Eb & _). apply nth_error_In in Ea, Eb. repeat constructor; apply B; assumption.
Qed.
Lemma nth_error_skip : forall A (l : list A) i j, nth_error (skipn i l) j = nth_error l (i + j).
Proof. induction l as [|x l IH]; intros [|i] j; cbn; auto. destruct j; reflexivity. Qed.
Lemma firstn_0_map : forall A B (f : A -> B) l, map f (firstn 0 l) = [].
Proof. reflexivity. Qed.

Lemma C31_all : forall g rules following, writable g rules ->
  exists bytes g', writeGrammar g = Ok bytes /\ are_bytes bytes /\ grammarBytes g = Ok (length bytes) /\
    readGrammar (bytes_bits (bytes ++ following)) = Ok (g', bytes_bits following) /\ sameGrammar g g'.
Proof.
  intros g rules following (W1 & W2 & W3 & W4 & W5 & W6 & W7 & W8 & W9 & W10 & W11 & W12 & W13 & W14 & W15 & W16).
  assert (KO : keysOk (g_specials g) rules (length (g_pairs g))) by (split; assumption).
  assert (LG : length (g_rules g) = length rules) by (rewrite W1; apply layout_length).
  destruct (packed_ok (N.of_nat (length rules))) as (pk & np & P1 & P2 & P3 & P4); [lia|].
  destruct rules as [|r0 rs0] eqn:ER.
  - destruct (W16 eq_refl) as (X1 & X2). unfold writeGrammar, grammarBytes, writePacked. rewrite LG, P1. cbn [bind].
    rewrite W1. cbn [layout]. exists (lowBytes np pk), emptyGrammar. split; [reflexivity|]. split; [exact P2|].
    split; [cbn [length Nat.eqb]; rewrite P3; reflexivity|]. unfold readGrammar. rewrite bytes_bits_app, P4. cbn [bind].
    split; [reflexivity|]. unfold sameGrammar, freedSymbols. rewrite X1, X2, W1, W2. cbn. repeat split; auto.
    symmetry. apply bool_list_ext; [exact W10|reflexivity|]. intros c Hc. rewrite W11, X1 by exact Hc. cbn [In]. split; [tauto|].
    intros E. exfalso. rewrite (nth_error_repeat_lt false 256) in E by lia. discriminate.
  - rewrite <- ER in *. clear W16.
    assert (NZ : (0 < length rules)%nat) by (rewrite ER; cbn [length]; lia). clear r0 rs0 ER.
    destruct (writeFlags_bits (g_rules g) [] ltac:(cbn; lia)) as (pad & Hpad & F1 & F2).
    change (8 - length [])%nat with 8%nat in F1, F2. change (be_val ([] ++ repeat false 8)) with 0 in F1, F2.
    cbn [app] in F1.
    assert (S00 : sqi 0 0) by (split; [lia|intros; lia]).
    destruct (lengths_ok rules W4 0 0 0%nat ltac:(lia) ltac:(cbn; lia)) as (lens & L1 & L2 & L3 & L4 & _). specialize (L4 eq_refl).
    set (lhs := concat (map (fun r => symBytes (fst r)) rules)) in *.
    set (fr := freedFrom (g_pairs g) 0 0) in *.
    assert (FC : countFreed (g_pairs g) 0 0 = length fr) by apply countFreed_len.
    assert (FC2 : (length fr <= 255)%nat) by (unfold fr; rewrite <- (freedCount_len _ _ _ S00); exact W15).
    assert (SQ : forall k e, nth_error (g_pairs g) (k * k) = Some e -> fst e = false /\ nth_error (g_specials g) k = Some (snd e)).
    { intros k e E. destruct (W13 _ _ E) as (Q & _). apply Q. reflexivity. }
    assert (SB : forall n e, nth_error (g_pairs g) n = Some e -> snd e < 256) by (intros n e E; apply (W13 _ _ E)).
    assert (FB : are_bytes fr) by (apply freedFrom_bytes; exact SB).
    assert (WF : writeFreedSymbols g = Ok (N.of_nat (length fr) :: fr)).
    { unfold writeFreedSymbols. rewrite FC. destruct (Nat.leb_spec (length fr) 255); [|lia].
      assert (E2 : freedFrom (skipn 2 (g_pairs g)) 2 2 = fr).
      { unfold fr. destruct (g_pairs g) as [|(v0, c0) [|(v1, c1) l]]; reflexivity. }
      rewrite (writeFreedLoop_ok _ (g_pairs g)); [rewrite E2; reflexivity|rewrite E2; reflexivity|lia]. }
    assert (WV : writeVariables (g_rules g) = lhs) by (rewrite W1; apply (writeVariables_eq _ _ _ _ KO W8)).
    rewrite <- W1 in L1.
    assert (BL : are_bytes lhs) by (apply (lhs_bytes _ _ _ KO W8)).
    assert (BR : are_bytes (concat (map snd rules))) by (apply concat_bytes; exact W4).
    assert (NB : N.of_nat (length (g_specials g)) mod 256 = N.of_nat (length (g_specials g))) by (apply N.mod_small; lia).
    assert (NE : g_rules g <> []) by (intros E; rewrite E in LG; cbn in LG; lia).
    exists (lowBytes np pk ++ writeSpecialSymbols g ++ writeFlags (g_rules g) 0 8 ++ lhs ++ (N.of_nat (length fr) :: fr) ++ lens ++ g_rhs g).
    match goal with |- exists g', _ = Ok ?b /\ _ => set (out := b) end.
    assert (WG : writeGrammar g = Ok out).
    { unfold writeGrammar, writePacked. rewrite LG, P1. cbn [bind]. rewrite WF, L1, WV. cbn [bind].
      destruct (g_rules g) eqn:Eg; [contradiction|]. reflexivity. }
    assert (GB : grammarBytes g = Ok (length out)).
    { unfold grammarBytes. rewrite LG, P1. cbn [bind]. destruct (Nat.eqb_spec (length rules) 0); [lia|]. rewrite FC, W1, layout_widths. fold lhs.
      unfold out. rewrite !app_length, P3, L3. unfold writeSpecialSymbols. cbn [length]. rewrite Nat.add_0_l.
      assert (FL : length (writeFlags (g_rules g) 0 8) = (length rules / 8 + (if (length rules mod 8 =? 0) then 0 else 1))%nat).
      { apply (f_equal (@length bool)) in F1. rewrite bytes_bits_length, app_length, map_length, repeat_length, LG in F1.
        clear -F1 Hpad. destruct (Nat.eqb_spec (length rules mod 8) 0); lia. }
      rewrite FL. f_equal. lia. }
    destruct (readSpecials_ok (length (g_specials g)) (g_specials g) [] 
               (bytes_bits (writeFlags (g_rules g) 0 8 ++ lhs ++ (N.of_nat (length fr) :: fr) ++ lens ++ g_rhs g ++ following))
               (repeat false 256) (repeat 0 256) (repeat true (length (g_specials g) * length (g_specials g))))
      as (sp' & en' & or' & R & Ls & Le & Lo & Rs & Re & Ro); auto; rewrite ?repeat_length; auto.
    { intros c Hc. cbn [In]. split; [|tauto]. intros E. rewrite (nth_error_repeat_lt false 256) in E by lia. discriminate. }
    { intros i a E. destruct i; discriminate. }
    { intros n Hn _. apply (nth_error_repeat_lt true). exact Hn. }
    cbn [app] in R, Rs, Re. change (length []) with 0%nat in R.
    destruct (readVariables_ok (g_specials g) en' (length (g_pairs g)) rules
               (bytes_bits ((N.of_nat (length fr) :: fr) ++ lens ++ g_rhs g ++ following))
               (repeat 0 256) (repeat false 256) or' 0 KO W8 W9 Re eq_refl eq_refl ltac:(lia))
      as (f' & v' & o' & mx & V & Lf & Lo' & Vo & Vm & _ & Vx).
    fold lhs in V.
    assert (OR : forall n e, nth_error (g_pairs g) n = Some e -> (forall k, n <> (k * k)%nat) -> nth_error o' n = Some (negb (fst e))).
    { intros n e E NS. pose proof (nth_error_bound _ _ _ E) as Bn. destruct (nth_error_lt o' n) as (x & Ex); [lia|].
      rewrite Ex. specialize (Vo n). rewrite Ex, (Ro n ltac:(lia) NS) in Vo.
      destruct (W13 _ _ E) as (_ & Q & _). specialize (Q NS). fold (largeIn (g_specials g) rules n) in Q.
      destruct x, (fst e); cbn [negb]; auto; exfalso.
      - destruct Vo as (Vo & _). destruct (Vo eq_refl) as (_ & X). apply X. apply Q. reflexivity.
      - destruct Vo as (_ & Vo). assert (X : Some false = Some true) by (apply Vo; split; [reflexivity|]; intros L; apply Q in L; discriminate).
        discriminate. }
    destruct (readFreed_ok (g_specials g) o' (g_pairs g) SQ SB W12 OR (S (length (g_specials g) * length (g_specials g))) 0 0
               (bytes_bits (lens ++ g_rhs g ++ following)) S00 ltac:(lia) ltac:(lia)) as (cu & sq & RF & Qs & Hcu & EF).
    cbn [skipn] in RF. fold fr in RF. rewrite firstn_0_map in RF.
    destruct (readSides_ok (concat (map snd rules)) (bytes_bits following) f' BR Lf) as (f2 & RS).
    exists (mkG f2 sp' v' (g_specials g) (map canon (g_pairs g)) (g_rules g) (g_rhs g) 0).
    split; [exact WG|]. split.
    { unfold out. repeat (apply are_bytes_app; auto).
      - unfold writeSpecialSymbols. constructor; [unfold is_byte; lia|exact W8].
      - constructor; [unfold is_byte; lia|exact FB].
      - rewrite W2. exact BR. }
    split; [exact GB|]. split.
    + unfold readGrammar, out. rewrite <- !app_assoc, bytes_bits_app, P4. cbn [bind].
      unfold two32. rewrite N.mod_small by lia. destruct (N.eqb_spec (N.of_nat (length rules)) 0) as [?|_]; [lia|].
      unfold writeSpecialSymbols. cbn [app]. rewrite NB, bytes_bits_cons, readByte_spec by lia. rewrite Nat2N.id.
      rewrite bytes_bits_app. cbn [app] in R. rewrite R. cbn [bind].
      rewrite bytes_bits_app, F1, Nat2N.id, <- !app_assoc. rewrite <- LG at 1. rewrite <- (map_length r_large (g_rules g)) at 1.
      rewrite readFlags_ok, flush_pad by exact Hpad. rewrite bytes_bits_app.
      replace (map r_large (g_rules g)) with (map (fun r : sym * list N => isTwo (fst r)) rules) by (rewrite W1, layout_flags; reflexivity).
      cbn [app] in V. rewrite V. cbn [bind].
      rewrite bytes_bits_cons, readByte_spec by lia. rewrite Nat2N.id, bytes_bits_app, RF. cbn [bind].
      assert (FP : (if 0 <? mx then fillPairs (S (N.to_nat mx) - cu) (g_specials g) cu sq (map canon (firstn cu (g_pairs g)))
                    else Ok (map canon (firstn cu (g_pairs g)))) = Ok (map canon (g_pairs g))).
      { assert (MXB : g_pairs g <> [] -> mx < N.of_nat (length (g_pairs g))).
        { intros NP. destruct Vx as [->|(n & (i & j & a & b & side & -> & Ea & Eb & I) & ->)].
          - destruct (g_pairs g); [contradiction|cbn [length]; lia].
          - destruct (W6 _ _ _ I) as (i' & j' & Ea' & Eb' & Hn). pose proof (Re _ _ Ea) as X1. pose proof (Re _ _ Eb) as X2.
            rewrite (Re _ _ Ea') in X1. rewrite (Re _ _ Eb') in X2. injection X1 as X1. injection X2 as X2.
            replace i with i' by lia. replace j with j' by lia. lia. }
        destruct W14 as [EP|(n & Ln & NS)].
        - assert (mx = 0).
          { destruct Vx as [->|(n & (i & j & a & b & side & -> & Ea & Eb & I) & ->)]; [reflexivity|].
            destruct (W6 _ _ _ I) as (i' & j' & Ea' & Eb' & Hn). rewrite EP in Hn. cbn [length] in Hn. lia. }
          subst mx. cbn. rewrite EP. rewrite firstn_nil. reflexivity.
        - assert (MXB' := MXB ltac:(intros X; rewrite X in Ln; discriminate)). clear MXB.
          destruct (Nat.eq_dec cu (length (g_pairs g))) as [->|NC].
          + rewrite firstn_all. replace (S (N.to_nat mx) - length (g_pairs g))%nat with 0%nat by lia. destruct (0 <? mx); reflexivity.
          + destruct (nth_error_lt (g_pairs g) n) as (e & E); [lia|].
            assert (FE : fst e = true).
            { apply (freedFrom_nil _ _ _ Qs EF (n - cu) e); [|intros k; replace (cu + (n - cu))%nat with n by lia; apply NS].
              rewrite nth_error_skip. replace (cu + (n - cu))%nat with n by lia. exact E. }
            destruct (W13 _ _ E) as (_ & Q & _). specialize (Q NS). apply Q in FE. apply Vm in FE.
            assert (mx = N.of_nat n) by lia.
            destruct (N.ltb_spec 0 mx).
            * apply fillPairs_ok; auto. lia.
            * exfalso. apply (NS 0%nat). lia. }
      rewrite FP. cbn [bind]. rewrite bytes_bits_app, L4. rewrite bytes_bits_app, W2, Nat.add_0_l, RS. cbn [bind]. rewrite W1. reflexivity.
    + unfold sameGrammar, freedSymbols. cbn [g_special g_specials g_rules g_rhs g_pairs].
      split; [|split; [reflexivity|split; [reflexivity|split; [reflexivity|apply freedSymbols_canon]]]].
      apply bool_list_ext; auto. intros c Hc. rewrite Rs, W11 by exact Hc. reflexivity.
Qed.

Lemma C30_all : forall g rules size slices following, writable g rules -> 0 < size < 2 ^ 56 -> slices < 2 ^ 56 ->
  exists bytes g', writePreHeader size slices g = Ok (bytes, length bytes) /\ are_bytes bytes /\
    readPreHeader (bytes_bits (bytes ++ following)) = Ok (Some (size, slices, g'), bytes_bits following) /\ sameGrammar g g'.
Proof.
  intros g rules size slices following W Hs Hl.
  destruct (C31_all g rules following W) as (bytes & g' & E1 & B & E2 & E3 & S).
  destruct (packed_ok size) as (p & n & P1 & P2 & P3 & P4); [lia|].
  destruct (packed_ok slices Hl) as (q & m & Q1 & Q2 & Q3 & Q4).
  exists (lowBytes n p ++ lowBytes m q ++ bytes), g'. unfold writePreHeader. rewrite P1, Q1, E1, E2. cbn [bind].
  split; [rewrite !app_length, P3, Q3, Nat.add_assoc; reflexivity|]. split; [repeat apply are_bytes_app; assumption|].
  split; [|exact S]. unfold readPreHeader. rewrite <- !app_assoc, bytes_bits_app, P4. cbn [bind].
  destruct (N.eqb_spec size 0); [lia|]. rewrite bytes_bits_app, Q4. cbn [bind]. rewrite E3. reflexivity.
Qed.

Lemma readBytes_ok : forall l s, are_bytes l -> readBytes (length l) (bytes_bits l ++ s) = (l, s).
Proof.
  induction l as [|c l IH]; intros s B; [reflexivity|]. inversion_clear B as [|? ? Bc Bl].
  cbn [length readBytes]. rewrite bytes_bits_cons, <- app_assoc.
  destruct (byte_bits c ++ bytes_bits l ++ s) eqn:E.
  - exfalso. apply (f_equal (@length bool)) in E. rewrite app_length, byte_bits_length in E. cbn in E. lia.
  - rewrite <- E, readByte_spec by exact Bc. rewrite IH by exact Bl. reflexivity.
Qed.

Lemma C30_compressed_all : forall g rules data following, writable g rules -> data <> [] -> are_bytes data ->
  N.of_nat (length data) < 2 ^ 56 ->
  exists bytes g', writePreHeaderCompressed (N.of_nat (length data)) g = Ok (bytes, length bytes) /\
    readPreHeaderCompressed (bytes_bits (bytes ++ data ++ following)) = Ok (Some (g', data), bytes_bits following) /\ sameGrammar g g'.
Proof.
  intros g rules data following W NE BD Hs.
  destruct (C31_all g rules (data ++ following) W) as (bytes & g' & E1 & B & E2 & E3 & S).
  destruct (packed_ok _ Hs) as (p & n & P1 & P2 & P3 & P4).
  exists (lowBytes n p ++ bytes), g'. unfold writePreHeaderCompressed. rewrite P1, E1, E2. cbn [bind].
  split; [rewrite !app_length, P3; reflexivity|].
  split; [|exact S]. unfold readPreHeaderCompressed. rewrite <- !app_assoc, bytes_bits_app, P4. cbn [bind].
  destruct (N.eqb_spec (N.of_nat (length data)) 0) as [E0|_]; [destruct data; [contradiction|cbn [length] in E0; lia]|].
  rewrite E3. cbn [bind]. rewrite Nat2N.id, bytes_bits_app, readBytes_ok by exact BD. rewrite N.eqb_refl. reflexivity.
Qed.

Lemma C30_end_all : forall following, readPreHeader (bytes_bits (writeEmptyHeader ++ following)) = Ok (None, bytes_bits following).
Proof.
  intros following. destruct (packed_ok 0 ltac:(lia)) as (p & n & P1 & _ & _ & P4). vm_compute in P1. injection P1 as <- <-.
  unfold readPreHeader, writeEmptyHeader. rewrite bytes_bits_app. change [0] with (lowBytes 1 0). rewrite P4. reflexivity.
Qed.

(** A grammar with two special symbols, two freed symbols and one rule for a pair of special symbols. *)
Definition someGrammar : grammar :=
  mkG (repeat 0 256) (upd (upd (repeat false 256) 7 true) 9 true) (repeat false 256) [7; 9]
      [(false, 7); (false, 9); (false, 100); (true, 60)]
      [mkRule 50 0 2 false; mkRule (9 * 256 + 7) 2 5 true] [1; 2; 50; 7; 9] 1.
Definition someRules : list (sym * list N) := [(One 50, [1; 2]); (Two 9 7, [50; 7; 9])].
Lemma someGrammar_writable : writable someGrammar someRules.
Proof.
  unfold writable. split; [reflexivity|]. split; [reflexivity|]. split; [reflexivity|]. cbn [someGrammar someRules g_specials g_pairs g_special].
  split.
  { intros k side [E|[E|[]]]; injection E as <- <-; (split; [cbn; lia|repeat constructor; unfold is_byte; lia]). }
  split; [intros c side [E|[E|[]]]; [injection E; lia|discriminate]|].
  split.
  { intros a b side [E|[E|[]]]; [discriminate|]. injection E as <- <- _. exists 1%nat, 0%nat. cbn. repeat split; lia. }
  split; [repeat constructor; cbn; lia|]. split; [repeat constructor; unfold is_byte; lia|]. split; [cbn; lia|].
  split; [reflexivity|]. split.
  { intros c Hc. rewrite !nth_error_upd by (rewrite ?upd_length, ?repeat_length; lia).
    destruct (Nat.eqb_spec (N.to_nat c) 9); [split; [intros _; cbn; lia|reflexivity]|].
    destruct (Nat.eqb_spec (N.to_nat c) 7); [split; [intros _; cbn; lia|reflexivity]|].
    split; [|cbn [In]; lia]. rewrite (nth_error_repeat_lt false 256) by lia. discriminate. }
  split; [cbn; lia|]. split.
  { intros n entry E.
    assert (LG : forall n, (exists i j a b side, n = number i j /\ nth_error [7; 9] i = Some a /\ nth_error [7; 9] j = Some b /\
                   In (Two a b, side) [(One 50, [1; 2]); (Two 9 7, [50; 7; 9])]) <-> n = 3%nat).
    { intros m. split.
      - intros (i & j & a & b & side & -> & Ea & Eb & [X|[X|[]]]); [discriminate|]. injection X as <- <- _.
        destruct i as [|[|[|]]]; try discriminate; destruct j as [|[|[|]]]; try discriminate; reflexivity.
      - intros ->. exists 1%nat, 0%nat, 9, 7, [50; 7; 9]. cbn. repeat split; auto. }
    destruct n as [|[|[|[|n]]]]; [| | | |destruct n; discriminate]; injection E as <-; (split; [|split; [|cbn [snd]; lia]]); cbn [fst snd].
    - intros [|k] Ek; [auto|lia].
    - intros NS. exfalso. apply (NS 0%nat). reflexivity.
    - intros [|[|k]] Ek; [lia|auto|lia].
    - intros NS. exfalso. apply (NS 1%nat). reflexivity.
    - intros [|[|k]] Ek; lia.
    - intros _. rewrite LG. split; [discriminate|lia].
    - intros [|[|k]] Ek; lia.
    - intros _. rewrite LG. split; auto. }
  split; [right; exists 3%nat; split; [reflexivity|intros [|[|k]]; lia]|]. split; [cbn; lia|]. discriminate.
Qed.

(** How many bytes the Huffman coder writes for a section. *)
From Coq Require Import List NArith ZArith Lia Arith Bool Permutation Sorted.
From Coq Require Import ZifyBool ZifyNat ZifyN.
From Verif Require Import Base Arrays ModelUtils ModelRuns SpecRuns ModelStreams ModelHeaders ModelHuffman ModelHuffmanCoder SpecHuffman SpecHeaders.
From Verif Require Import ProofUtils1 ProofUtils2 ProofUtils3 ProofRuns ProofStreams2 ProofHeaders ProofStreams1.
From Verif Require Import ProofHuffman4 ProofHuffman5 ProofHuffman6 ProofHuffman7 ProofHuffCoder1 ProofHuffCoder2 ProofHuffCoder3 ProofHuffCoder4.
Import ListNotations.
Open Scope nat_scope.

(** ** The code table *)
Lemma binaryCode_small : forall n lo hi bits, (lo <= n <= hi)%N -> (hi <= 255)%N -> binaryCode n lo hi = Ok bits -> length bits <= 8.
Proof.
  intros n lo hi bits H1 H2 E.
  destruct (binary_spec lo hi n H1) as (b & E1 & [_ L] & _).
  { eapply N.le_lt_trans; [exact H2|reflexivity]. } { apply N.le_trans with 256%N; [lia|discriminate]. }
  rewrite E in E1. injection E1 as <-.
  assert (K : (N.log2_up (hi - lo + 1) <= N.log2_up 256)%N) by (apply N.log2_up_le_mono; lia).
  change (N.log2_up 256) with 8%N in K. lia.
Qed.

Lemma interp_small : forall fuel l lo hi bits, increasing l -> Forall (fun x => lo <= x <= hi)%N l -> (hi <= 255)%N ->
  interpCode fuel l lo hi = Ok bits -> length bits <= 8 * length l.
Proof.
  induction fuel as [|f IH]; intros l lo hi bits Hs Hb Hh.
  { destruct l as [|x [|y l]]; cbn [interpCode].
    - intros E; injection E as <-; cbn; lia.
    - destruct (N.eqb _ _); [intros E; injection E as <-; cbn; lia|]. intros E. apply binaryCode_small in E; [cbn [length]; lia| |exact Hh].
      inversion_clear Hb. assumption.
    - destruct (N.eqb _ _); [intros E; injection E as <-; cbn; lia|discriminate]. }
  destruct l as [|y [|y2 l']] eqn:El.
  { cbn [interpCode]. intros E; injection E as <-; cbn; lia. }
  { cbn [interpCode]. destruct (N.eqb _ _); [intros E; injection E as <-; cbn; lia|]. intros E. apply binaryCode_small in E; [cbn [length]; lia| |exact Hh].
    inversion_clear Hb. assumption. }
  assert (Hn : 2 <= length l) by (rewrite El; cbn [length]; lia). rewrite <- El in *.
  assert (U : interpCode (S f) l lo hi =
      if (N.of_nat (length l - 1) =? (hi + two64 - lo) mod two64)%N then Ok [] else
        match skipn ((length l - 1) / 2) l with
        | [] => UB
        | x :: rpart =>
          let! bm := binaryCode x (lo + N.of_nat ((length l - 1) / 2))%N (hi - N.of_nat (length l - 1 - (length l - 1) / 2))%N in
          let! bl := (if (0 <? (length l - 1) / 2) then interpCode f (firstn ((length l - 1) / 2) l) lo (x - 1)%N else Ok []) in
          let! br := interpCode f rpart (x + 1)%N hi in
          Ok (bm ++ bl ++ br)
        end) by (rewrite El; reflexivity).
  rewrite U. clear U. destruct (N.eqb _ _); [intros E; injection E as <-; cbn; lia|].
  set (h := (length l - 1) / 2). assert (Hh1 : h < length l) by (unfold h; lia). clearbody h.
  destruct (skipn_cons_split l h Hh1) as [x [r [Esk [Esp Elr]]]]. rewrite Esk. clear El y y2 l'.
  assert (Hfl : length (firstn h l) = h) by (rewrite firstn_length; lia).
  assert (Incr := Hs). rewrite Esp in Incr.
  destruct (increasing_app _ _ _ Incr) as [IncA [IncB [LtA GtB]]].
  assert (HbS := Hb). rewrite Esp in HbS. rewrite Forall_app in HbS. destruct HbS as [HbA HbB].
  inversion HbB as [|? ? Hx HbR]; subst.
  assert (Bx1 : (lo + N.of_nat h <= x)%N).
  { destruct (Nat.eq_dec h 0) as [->|NZ]; [lia|].
    assert (firstn h l <> []) by (intros F; rewrite F in Hfl; simpl in Hfl; lia).
    assert (G : (N.of_nat (length (firstn h l)) <= (x - 1) - lo + 1)%N).
    { apply increasing_count; auto.
      rewrite Forall_forall in *. intros z Hz. specialize (LtA z Hz). specialize (HbA z Hz). simpl in *. lia. }
    assert (lo < x)%N.
    { destruct (firstn h l) as [|z t]; [contradiction|]. inversion LtA; inversion HbA; subst. lia. }
    lia. }
  assert (Bx2 : (x + N.of_nat (length l - 1 - h) <= hi)%N).
  { destruct r as [|z t]; [simpl in Elr; lia|].
    assert (G : (N.of_nat (length (z :: t)) <= hi - (x + 1) + 1)%N).
    { apply increasing_count; auto; [discriminate|].
      rewrite Forall_forall in *. intros y Hy. specialize (GtB y Hy). specialize (HbR y Hy). simpl in *. lia. }
    inversion GtB; inversion HbR; subst. lia. }
  destruct (binaryCode _ _ _) as [bm| |] eqn:B1; cbn [bind]; try discriminate. apply binaryCode_small in B1; [|lia|lia].
  destruct (if 0 <? h then interpCode f (firstn h l) lo (x - 1)%N else Ok []) as [bl| |] eqn:B2; cbn [bind]; try discriminate.
  assert (B2' : length bl <= 8 * length (firstn h l)).
  { destruct (0 <? h); [|injection B2 as <-; cbn; lia]. eapply IH; [exact IncA| | |exact B2]; [|lia].
    rewrite Forall_forall in *. intros z Hz. specialize (LtA z Hz). specialize (HbA z Hz). cbn beta in *. lia. }
  destruct (interpCode f r (x + 1)%N hi) as [br| |] eqn:B3; cbn [bind]; try discriminate. apply IH in B3; [| exact IncB | | exact Hh].
  - intros E. injection E as <-. rewrite !app_length. lia.
  - rewrite Forall_forall in *. intros z Hz. specialize (GtB z Hz). specialize (HbR z Hz). cbn beta in *. lia.
Qed.

Lemma unaryLengths_small : forall clen maxLen symbols bits, unaryLengths clen maxLen symbols = Ok bits ->
  (maxLen <= 44)%N -> Forall (fun s => exists l, nth_error clen (N.to_nat s) = Some l /\ (0 < l)%N) symbols -> length bits <= 44 * length symbols.
Proof.
  intros clen maxLen. induction symbols as [|s r IH]; intros bits H M F; cbn [unaryLengths] in H.
  - injection H as <-. cbn. lia.
  - destruct (get clen (N.to_nat s)) as [l| |] eqn:G; cbn [bind] in H; try discriminate.
    destruct (unaryLengths clen maxLen r) as [b| |] eqn:U; cbn [bind] in H; try discriminate.
    injection H as <-. inversion_clear F as [|? ? (l' & F1 & F2) F']. specialize (IH b eq_refl M F'). apply get_inv in G. rewrite F1 in G. injection G as ->.
    rewrite app_length, unaryCode_length by lia. cbn [length]. lia.
Qed.

Lemma shape_small : forall clen bits, length clen = 256 -> Forall (fun l => l <= 44)%N clen ->
  serializeShape clen = Ok bits -> length bits <= 24 + 52 * 256.
Proof.
  intros clen bits L F H. unfold serializeShape in H.
  destruct (rev (usedSymbols clen)) as [|back t] eqn:R; [discriminate|].
  assert (ML : (maxLength clen < 45)%N) by (apply maxLength_lt; [lia|]; eapply Forall_impl; [|exact F]; cbn beta; intros; lia).
  rewrite pack_small in H by lia. cbn [bind] in H.
  assert (S : StronglySorted N.lt (usedSymbols clen)) by apply (usedFrom_sorted clen 0).
  assert (LS : length (usedSymbols clen) <= 256) by (rewrite <- L; apply (usedFrom_length clen 0)).
  assert (EU : usedSymbols clen = rev t ++ [back]) by (rewrite <- (rev_involutive (usedSymbols clen)), R; reflexivity).
  assert (UF : Forall (fun s => exists l, nth_error clen (N.to_nat s) = Some l /\ (0 < l)%N) (usedSymbols clen)).
  { apply Forall_forall. intros s Hs. apply used_in_table in Hs. exact Hs. }
  assert (UB : Forall (fun s => 0 <= s <= back)%N (usedSymbols clen)).
  { rewrite EU in S |- *. apply increasing_app in S. destruct S as (_ & _ & S1 & _). apply Forall_app. split.
    - eapply Forall_impl; [|exact S1]. cbn beta. intros; lia.
    - constructor; [lia|constructor]. }
  assert (BB : (back <= 255)%N).
  { rewrite EU in UF. apply Forall_app in UF. destruct UF as [_ UF]. apply Forall_inv in UF. destruct UF as (l & Hl & _).
    apply nth_error_bound in Hl. lia. }
  destruct (binaryInterpolativeCode _ _ _) as [i| |] eqn:I; cbn [bind] in H; try discriminate.
  destruct (unaryLengths _ _ _) as [u| |] eqn:U; cbn [bind] in H; try discriminate.
  apply (f_equal (fun o => match o with Ok b => b | _ => [] end)) in H. cbn beta iota in H. rewrite <- H. clear H bits.
  apply interp_small in I; [|exact S|exact UB|exact BB]. apply unaryLengths_small in U; [|lia|exact UF].
  rewrite !app_length, !pushBits_be, !be_bits_length. lia.
Qed.

(** ** The codes of the characters *)
(** Sums over the runs, grouped by character. *)
Lemma sum_by_symbol : forall (g : N -> N) syms seq, NoDup syms -> (forall c, In c seq -> In c syms) ->
  fold_right (fun s a => N.of_nat (count_occ N.eq_dec seq s) * g s + a)%N 0%N syms = sumN (map g seq).
Proof.
  intros g syms. induction seq as [|c seq IH]; intros ND IN.
  - cbn [count_occ map]. change (sumN []) with 0%N. clear. induction syms as [|s r IH]; [reflexivity|]. cbn [fold_right]. rewrite IH. lia.
  - change (sumN (map g (c :: seq))) with (g c + sumN (map g seq))%N. rewrite <- (IH ND) by (intros d Hd; apply IN; right; exact Hd).
    assert (I : In c syms) by (apply IN; left; reflexivity). clear IN IH.
    induction syms as [|s r IHs]; [contradiction|]. inversion_clear ND as [|? ? N1 N2]. cbn [fold_right].
    cbn [count_occ] in *. destruct (N.eq_dec c s) as [->|NE].
    + assert (K : forall r', ~ In s r' -> fold_right (fun s0 a => (N.of_nat (if N.eq_dec s s0 then S (count_occ N.eq_dec seq s0) else count_occ N.eq_dec seq s0) * g s0 + a)%N) 0%N r' =
        fold_right (fun s0 a => (N.of_nat (count_occ N.eq_dec seq s0) * g s0 + a)%N) 0%N r').
      { induction r' as [|q r' IHr]; intros NI; [reflexivity|]. cbn [fold_right]. rewrite IHr by (intros H; apply NI; right; exact H).
        destruct (N.eq_dec s q) as [->|]; [exfalso; apply NI; left; reflexivity|reflexivity]. }
      rewrite (K r N1). lia.
    + destruct I as [I|I]; [congruence|]. rewrite (IHs N2 I). lia.
Qed.

Lemma fixed_code_free : forall syms, NoDup syms -> Forall (fun s => s < 256)%N syms -> prefix_free (map (be_bits 8) syms).
Proof.
  intros syms ND F. induction syms as [|s r IH]; [constructor|]. inversion_clear ND as [|? ? N1 N2]. inversion_clear F as [|? ? F1 F2].
  cbn [map]. constructor; [|apply IH; assumption]. apply Forall_forall. intros b Hb. apply in_map_iff in Hb. destruct Hb as (q & <- & Hq).
  assert (NEq : s <> q) by (intros ->; contradiction). rewrite Forall_forall in F2. specialize (F2 q Hq).
  assert (K : forall x y c, (x < 256)%N -> (y < 256)%N -> be_bits 8 x = be_bits 8 y ++ c -> x = y).
  { intros x y c Hx Hy E. assert (c = []).
    { apply (f_equal (@length bool)) in E. rewrite app_length, !be_bits_length in E. destruct c; [reflexivity|cbn [length] in E; lia]. }
    subst c. rewrite app_nil_r in E. pose proof (readInto_be 8 x [] Hx) as A. pose proof (readInto_be 8 y [] Hy) as B. rewrite E in A. congruence. }
  split; intros [c E].
  - apply NEq. symmetry. apply (K q s c); assumption.
  - apply NEq. apply (K s q c); assumption.
Qed.

(** Never more than eight bits per run on average. *)
Lemma lens_cheap : forall freqs lens, length freqs = 256 -> Exists (fun f => 0 < f)%N freqs -> (sumN freqs < 2 ^ 31)%N ->
  calculateHuffmanLengths freqs = Ok lens ->
  (coded_length freqs lens <= coded_length freqs (map (fun s => (8, s)%N) (map snd lens)))%N.
Proof.
  intros freqs lens L E S H. destruct (nonzero_cases freqs E) as [(b & f & a & -> & B & F & A)|G].
  - rewrite (single_symbol b f a B F A) in H. injection H as <-. cbn [coded_length fold_right map fst snd].
    apply N.add_le_mono_r, N.mul_le_mono_l. lia.
  - assert (S64 : (sumN freqs < two64)%N) by (unfold two64; eapply N.lt_trans; [exact S|reflexivity]).
    destruct (C10_all freqs G S64) as (lens' & H' & O & C). rewrite H in H'. injection H' as <-.
    destruct (huffman_all freqs G S64) as (lens' & H' & ND & _). rewrite H in H'. injection H' as <-.
    specialize (C (be_bits 8)). erewrite (map_ext _ (fun s => (8, s)%N)) in C by (intros s; rewrite be_bits_length; reflexivity).
    apply C. apply fixed_code_free; [exact ND|].
    apply Forall_forall. intros s Hs. apply O in Hs. destruct Hs as (v & Hv & _). apply nth_error_bound in Hv. lia.
Qed.

Lemma symbolCodes_bits : forall clen code seq cs, symbolCodes clen code seq = Ok cs ->
  N.of_nat (length (codeBits cs)) = sumN (map (fun c => nth (N.to_nat c) clen 0%N) seq).
Proof.
  intros clen code. induction seq as [|c r IH]; intros cs H; cbn [symbolCodes] in H; [injection H as <-; reflexivity|].
  destruct (get clen (N.to_nat c)) as [l| |] eqn:G; cbn [bind] in H; try discriminate.
  destruct (get code (N.to_nat c)) as [v| |]; cbn [bind] in H; try discriminate.
  destruct (symbolCodes clen code r) as [t| |]; cbn [bind] in H; try discriminate. injection H as <-. specialize (IH t eq_refl).
  cbn [codeBits flat_map fst snd]. fold (codeBits t). rewrite app_length, be_bits_length, Nat2N.inj_add, IH.
  apply get_inv in G. cbn [map]. rewrite (nth_error_nth _ _ _ G). change (sumN (?a :: ?b)) with (a + sumN b)%N. lia.
Qed.

Lemma gamma_bits : forall runlen gs, Forall (fun n => 1 <= n /\ (N.of_nat n < 2 ^ 29)%N) runlen -> gammaCodes runlen = Ok gs ->
  length (codeBits gs) + 8 * length runlen <= 9 * list_sum runlen.
Proof.
  induction runlen as [|n r IH]; intros gs F H; cbn [gammaCodes] in H; [injection H as <-; cbn; lia|].
  inversion_clear F as [|? ? [F1 F2] F3].
  assert (E29 : (2 ^ 29 < 2 ^ 64)%N) by reflexivity.
  rewrite (logFloor_spec (N.of_nat n)) in H by (unfold two64; lia). cbn [bind] in H.
  destruct (gammaCodes r) as [t| |]; cbn [bind] in H; try discriminate. injection H as <-. specialize (IH t F3 eq_refl).
  cbn [codeBits flat_map fst snd]. fold (codeBits t). rewrite app_length, be_bits_length.
  change (list_sum (n :: r)) with (n + list_sum r). cbn [length].
  assert (LG : (N.log2 (N.of_nat n) < N.of_nat n)%N) by (apply N.log2_lt_lin; lia). lia.
Qed.

Lemma expand_length : forall runs, length (expand runs) = list_sum (map snd runs).
Proof.
  induction runs as [|[c n] r IH]; [reflexivity|]. cbn [expand flat_map fst snd map]. fold (expand r). rewrite app_length, repeat_length, IH. reflexivity.
Qed.

Lemma section_size : forall data out n, data <> [] -> are_bytes data -> (N.of_nat (length data) < 2 ^ 31)%N -> shortRuns data ->
  encodeSection data = Ok (out, n) -> 8 * length out <= 9 * length data + 8 * 1677.
Proof.
  intros data out n NE AB LN SR ENC.
  destruct (store_runs_all (fun _ => 0%N) data NE) as (runs & freqs & R1 & (R2 & R3 & R4) & R5).
  destruct (runs_short runs R4) as [RS RL]. { rewrite R2. exact SR. }
  assert (RNE : runs <> []) by (intros ->; cbn in R2; congruence).
  assert (RC : Forall (fun c => c < 256)%N (map fst runs)).
  { apply Forall_forall. intros c Hc. unfold are_bytes in AB. rewrite Forall_forall in AB. apply AB. rewrite <- R2. apply expand_in; assumption. }
  set (F := countersArray freqs) in *.
  assert (FL : length F = 256) by (unfold F, countersArray; rewrite map_length; apply fromTo_length).
  assert (FN : forall c, (c < 256)%N -> nth_error F (N.to_nat c) = Some (freqs c)).
  { intros c Hc. unfold F, countersArray. erewrite map_nth_error; [reflexivity|]. rewrite fromTo_nth by lia. f_equal. lia. }
  assert (RL' : length runs <= length data) by (rewrite R2 in RL; exact RL).
  assert (FS : (sumN F < 2 ^ 31)%N).
  { pose proof (counts_bound 256 0 (map fst runs)) as B. rewrite map_length in B.
    unfold F, countersArray. erewrite map_ext; [|exact R5]. cbn [N.add]. eapply N.le_lt_trans; [exact B|]. lia. }
  assert (OCC : forall c, In c (map fst runs) -> occurs F c).
  { intros c Hc. exists (freqs c). rewrite Forall_forall in RC. split; [apply FN, RC, Hc|].
    rewrite R5. pose proof (proj1 (count_occ_In N.eq_dec (map fst runs) c) Hc). lia. }
  assert (FE : Exists (fun f => 0 < f)%N F).
  { destruct runs as [|[c m] runs]; [congruence|]. destruct (OCC c (or_introl eq_refl)) as (f & Hf & Pf).
    apply Exists_exists. exists f. split; [eapply nth_error_In; exact Hf|exact Pf]. }
  destruct (codeTable_lens F FL FE FS) as (lens & clen & L1 & L2 & L3 & L4 & L5 & L6 & L7).
  destruct (lens_cases F FE FS) as (lens' & L1' & ND & OC & G1 & _). rewrite L1 in L1'. injection L1' as <-.
  assert (SB : forall s, In s (map snd lens) -> (s < 256)%N).
  { intros s Hs. apply OC in Hs. destruct Hs as (f & Hf & _). apply nth_error_bound in Hf. lia. }
  assert (B4 : forall p, In p lens -> nth (N.to_nat (snd p)) clen 0%N = fst p).
  { destruct (fillLengths_spec lens (repeat 0%N 256)) as (clen' & B1 & _ & _ & B4 & _).
    { apply repeat_length. } { exact ND. }
    { apply Forall_forall. intros p Hp. split; [apply SB; apply in_map; exact Hp|]. rewrite Forall_forall in G1. apply G1. exact Hp. }
    { intros s Hs. apply nth_error_repeat_lt. specialize (SB s Hs). lia. }
    rewrite L2 in B1. injection B1 as <-. intros p Hp. apply nth_error_nth. apply B4. exact Hp. }
  pose proof (lens_cheap F lens FL FE FS L1) as CH.
  assert (GR : forall g, coded_length F (map (fun s => (g s, s)) (map snd lens)) = sumN (map g (map fst runs))).
  { intros g. rewrite <- (sum_by_symbol g (map snd lens) (map fst runs) ND).
    2: { intros c Hc. apply OC, OCC, Hc. }
    unfold coded_length. clear -FN R5 SB. induction lens as [|p r IH]; [reflexivity|]. cbn [map fold_right fst snd].
    rewrite IH by (intros s Hs; apply SB; right; exact Hs). f_equal. f_equal.
    erewrite nth_error_nth; [|apply FN, SB; left; reflexivity]. rewrite R5. lia. }
  rewrite (GR (fun _ => 8%N)) in CH.
  assert (CL : coded_length F lens = sumN (map (fun c => nth (N.to_nat c) clen 0%N) (map fst runs))).
  { rewrite <- GR. f_equal. rewrite map_map. rewrite <- (map_id lens) at 1. apply map_ext_in. intros p Hp. rewrite (B4 p Hp). destruct p; reflexivity. }
  rewrite CL in CH.
  assert (E8 : sumN (map (fun _ => 8%N) (map fst runs)) = (8 * N.of_nat (length runs))%N).
  { clear. induction runs as [|p r IH]; [reflexivity|]. cbn [map length]. change (sumN (?a :: ?b)) with (a + sumN b)%N. rewrite IH. lia. }
  rewrite E8 in CH. clear GR CL E8.
  destruct (pack_all (N.of_nat (length runs))) as (packed & bytes & P1 & P2 & P3 & _ & _ & P4 & P5 & P6 & _).
  { eapply N.le_lt_trans with (m := N.of_nat (length data)); [lia|]. eapply N.lt_trans; [exact LN|]. reflexivity. }
  assert (L128 : Forall (fun l => l < 128)%N clen) by (eapply Forall_impl; [|exact L5]; cbn beta; intros; lia).
  destruct (C12_all clen L3 L6 L128) as (shape & S1 & _ & _).
  pose proof (shape_small clen shape L3 L5 S1) as S4.
  destruct (writeShape_spec shape) as (spad & S5 & _ & S6).
  assert (S7 : length (writeShapeBytes shape) <= 1667).
  { apply (f_equal (@length bool)) in S6. rewrite bytes_bits_length, app_length, repeat_length in S6. lia. }
  assert (L256 : Forall (fun l => l < 256)%N clen) by (eapply Forall_impl; [|exact L5]; cbn beta; intros; lia).
  destruct (canonical_all clen L3 L256 L4) as (code & C1 & C2 & C3 & _).
  destruct (symbolCodes_spec clen code (map fst runs) L3 C2) as (cs & D1 & D2 & D3 & _).
  { intros i l c Hl Hc. destruct (C3 i l c Hl Hc) as (_ & _ & Y). split; [|exact Y].
    apply nth_error_In in Hl. rewrite Forall_forall in L5. exact (L5 l Hl). }
  { apply Forall_forall. intros c Hc. apply L7, OCC, Hc. }
  destruct (packCodes_spec cs 0 0 ltac:(lia) D3) as (body & pad & E1 & _ & E3 & E4). cbn [be_bits app] in E4.
  destruct (gamma_spec (map snd runs) RS) as (gs & H1 & _ & H3 & _).
  destruct (packCodes_spec gs 0 0 ltac:(lia) H3) as (lengths & pad2 & H4 & _ & H5 & H6). cbn [be_bits app] in H6.
  assert (K : encodeSection data = Ok (lowBytes bytes packed ++ writeShapeBytes shape ++ body ++ lengths,
      bytes + length (writeShapeBytes shape) + length body + length lengths)).
  { unfold encodeSection. rewrite R1. cbn [bind]. fold F. rewrite L1. cbn [bind]. rewrite L2. cbn [bind]. rewrite P1. cbn [bind].
    rewrite P6. cbn [bind]. rewrite S1. cbn [bind]. rewrite C1. cbn [bind]. rewrite D1. cbn [bind]. rewrite E1. cbn [bind].
    rewrite H1. cbn [bind]. rewrite H4. cbn [bind]. reflexivity. }
  rewrite K in ENC. injection ENC as <- _. clear K.
  apply symbolCodes_bits in D1. rewrite <- D1 in CH.
  apply gamma_bits in H1; [|exact RS]. rewrite map_length, <- expand_length, R2 in H1.
  apply (f_equal (@length bool)) in E4, H6. rewrite bytes_bits_length, app_length, repeat_length in E4, H6.
  rewrite !app_length, P4. lia.
Qed.

(** ** Sections *)
Lemma sections_size : forall sections data out n, Forall (fun x => 0 < x)%N sections -> sumN sections = N.of_nat (length data) ->
  are_bytes data -> (N.of_nat (length data) < 2 ^ 31)%N -> shortRuns data -> encodeData sections data = Ok (out, n) ->
  8 * length out <= 9 * length data + 8 * 1677 * length sections.
Proof.
  induction sections as [|x r IH]; intros data out n P S AB LN SR E.
  - cbn [encodeData] in E. injection E as <- _. cbn. lia.
  - inversion_clear P as [|? ? P1 P2]. change (sumN (x :: r)) with (x + sumN r)%N in S.
    set (k := N.to_nat x). assert (K : 0 < k <= length data) by lia.
    rewrite <- (firstn_skipn k data) in SR, AB. apply Forall_app in AB. destruct AB as [AB1 AB2].
    assert (LF : length (firstn k data) = k) by (apply firstn_length_le; lia).
    assert (LS : length (skipn k data) = length data - k) by apply skipn_length.
    cbn [encodeData] in E. replace (x =? 0)%N with false in E by lia. fold k in E. replace (length data <? k) with false in E by lia.
    destruct (encodeSection (firstn k data)) as [[o1 n1]| |] eqn:E1; cbn [bind] in E; try discriminate.
    destruct (encodeData r (skipn k data)) as [[o2 n2]| |] eqn:E2; cbn [bind] in E; try discriminate. injection E as <- _.
    apply section_size in E1; [| |exact AB1|lia|apply (shortRuns_sub [] (firstn k data) (skipn k data)); exact SR].
    2: { intros Q. rewrite Q in LF. cbn [length] in LF. lia. }
    apply IH in E2; [|exact P2|lia|exact AB2|lia|].
    2: { apply (shortRuns_sub (firstn k data) (skipn k data) []). rewrite app_nil_r. exact SR. }
    rewrite app_length. cbn [length]. lia.
Qed.

(** Sections are at least 10000 bytes long unless there is only one. *)
Lemma sectionLoop_min : forall stats sum temp sum' temp', (sum + sumN stats < two32)%N ->
  Forall (fun x => 10000 <= x)%N temp -> sectionLoop stats sum temp = (sum', temp') -> Forall (fun x => 10000 <= x)%N temp' /\ (sumN temp' + sum' = sumN temp + sum + sumN stats)%N.
Proof.
  induction stats as [|x r IH]; intros sum temp sum' temp' H F E; cbn [sectionLoop] in E.
  - injection E as <- <-. change (sumN []) with 0%N. split; [exact F|lia].
  - change (sumN (x :: r)) with (x + sumN r)%N in *. assert (Q : (two32 < two64)%N) by reflexivity. rewrite N.mod_small in E by lia.
    destruct (N.leb_spec 10000 (sum + x)) as [G|G].
    + rewrite (N.mod_small (sum + x)) in E by lia. apply IH in E; [|lia|apply Forall_app; split; [exact F|constructor; [exact G|constructor]]].
      rewrite sumN_app in E. change (sumN [sum + x]%N) with (sum + x + 0)%N in E. destruct E as [E1 E2]. split; [exact E1|lia].
    + apply IH in E; [|lia|exact F]. destruct E as [E1 E2]. split; [exact E1|lia].
Qed.
Lemma sum_min : forall l, Forall (fun x => 10000 <= x)%N l -> (10000 * N.of_nat (length l) <= sumN l)%N.
Proof. induction 1 as [|x l H F IH]; [cbn; lia|]. change (sumN (x :: l)) with (x + sumN l)%N. cbn [length]. lia. Qed.

Lemma sections_count : forall stats, (sumN stats < two32)%N -> (10000 * N.of_nat (length (deduceSections stats)) <= sumN stats + 10000)%N.
Proof.
  intros stats H. unfold deduceSections. destruct (sectionLoop stats 0 []) as [sum temp] eqn:E.
  apply sectionLoop_min in E; [|lia|constructor]. destruct E as [F SU]. change (sumN []) with 0%N in SU. apply sum_min in F.
  destruct (N.eqb_spec sum 0) as [->|NZ]; [lia|]. destruct (rev temp) as [|x r] eqn:R.
  - cbn [length]. lia.
  - assert (L : length temp = S (length r)) by (rewrite <- (rev_length temp), R; reflexivity).
    rewrite app_length, rev_length. cbn [length]. lia.
Qed.

Lemma encodeBlock_size : forall written lf stats data out n,
  1 <= length lf <= 256 -> Forall (fun v => v < 2 ^ 31)%N lf -> length stats <= 256 -> sumN stats = N.of_nat (length data) ->
  data <> [] -> are_bytes data -> (N.of_nat (length data) < 2 ^ 31)%N -> shortRuns data ->
  encodeBlock written lf stats data = Ok (out, n) -> 10 * n <= 13 * length data + 10 * 2686.
Proof.
  intros written lf stats data out n L1 V L2 SS NE AB LN SR E.
  assert (DP : (0 < N.of_nat (length data))%N) by (destruct data; [congruence|cbn [length]; lia]).
  destruct (C29_all lf stats L1 V L2) as (sections & header & A1 & A2 & A3 & A4 & A5 & _).
  { rewrite SS. split; [exact DP|]. eapply N.lt_trans; [exact LN|]. reflexivity. }
  assert (SB : Forall (fun x => x < 2 ^ 56)%N sections).
  { apply Forall_le_sum. rewrite A3, SS. eapply N.lt_trans; [exact LN|]. reflexivity. }
  destruct (sections_spec sections data (N.of_nat (length data)) A4 ltac:(congruence) AB LN SR ltac:(lia)) as (body & B1 & _).
  pose proof (sections_size sections data body (length body) A4 ltac:(congruence) AB LN SR B1) as SZ.
  assert (SC : (10000 * N.of_nat (length sections) <= N.of_nat (length data) + 10000)%N /\ length header <= 1 + (31 * length lf + 7) / 8 + 1 + 8 * length sections).
  { pose proof A1 as H. destruct (C24_all lf L1 V) as (h & hn & H1 & _ & H3 & _). unfold writeBlockHeader in H. rewrite H1 in H.
    destruct (length (deduceSections stats) <=? 256); [|discriminate].
    destruct (writeLengths (deduceSections stats)) as [[ls m]| |] eqn:W; cbn [bind] in H; try discriminate.
    injection H as Q1 Q2 Q3. rewrite <- Q3. rewrite Q1 in W. apply writeLengths_length in W; [|exact SB]. split; [|lia].
    rewrite <- Q1, <- SS. apply sections_count. rewrite SS. eapply N.lt_trans; [exact LN|reflexivity]. }
  assert (D8 : (31 * length lf + 7) / 8 <= 992) by (apply Nat.lt_succ_r, Nat.div_lt_upper_bound; lia).
  assert (G : forall r, encodeBlock written lf stats data = Ok r -> snd r = length header + length body + 6).
  { unfold encodeBlock. rewrite A1. cbn [bind]. rewrite B1. cbn [bind].
    destruct (absWrite48 _ _ _) as [o| |]; cbn [bind]; intros r Q; try discriminate. injection Q as <-. reflexivity. }
  specialize (G _ E). cbn [snd] in G. lia.
Qed.

(** The message is what was stored. *)
From Coq Require Import List NArith Arith Bool Lia Sorted Permutation.
From Coq Require Import ZifyBool ZifyNat ZifyN.
From Verif Require Import Base Arrays ModelUtils ModelHuffman ModelWavelet SpecWavelet.
From Verif Require Import ProofWav1 ProofWav2 ProofWav4 ProofWav5 ProofWav6.
Import ListNotations.
Open Scope nat_scope.

Lemma valid_at : forall W t, full t -> forall q s c, look t q = Some (mkNode [] (Some s)) -> valid W (t, 0%N, 0%N) (q ++ c) ->
  valid W (leaf s, 0%N, 0%N) c.
Proof.
  induction 1 as [s0|l r Hl IHl Hr IHr]; intros q s c E Hc.
  - destruct q as [|b q]; cbn in E; [injection E as ->; exact Hc|]. destruct b; rewrite look_nil_empty in E; discriminate.
  - destruct q as [|b q]; cbn in E; [discriminate|]. cbn [app] in Hc. inversion Hc; subst. destruct b; eauto.
Qed.
Lemma full_leaf_end : forall t, full t -> forall q s b r, look t q = Some (mkNode [] (Some s)) -> look t (q ++ b :: r) = None.
Proof.
  induction 1 as [s0|l r Hl IHl Hr IHr]; intros q s b y E.
  - destruct q as [|c q]; cbn; [destruct b; apply look_nil_empty|]. destruct c; apply look_nil_empty.
  - destruct q as [|c q]; cbn in E |- *; [discriminate|]. destruct c; eauto.
Qed.
Lemma full_inside : forall t, full t -> forall q b r n, look t (q ++ b :: r) = Some n -> look t q = Some (mkNode [] None).
Proof.
  induction 1 as [s0|l r Hl IHl Hr IHr]; intros q b y n E.
  - destruct q as [|c q]; cbn in E; [destruct b; rewrite look_nil_empty in E; discriminate|].
    destruct c; rewrite look_nil_empty in E; discriminate.
  - destruct q as [|c q]; cbn in E |- *; [reflexivity|]. destruct c; eauto.
Qed.

Lemma full_cases : forall t, full t -> (exists s, t = leaf s /\ symbolOf t = Some s) \/ (symbolOf t = None /\ look t [] = Some (mkNode [] None)).
Proof. intros t H. destruct H; [left|right]; eauto. Qed.

Lemma counted_word : forall needed pre w seen, counted needed pre w seen -> counted needed (pre ++ [w]) [] seen.
Proof.
  intros needed pre w seen H q Hq. rewrite H by exact Hq. rewrite (ends_words (q ++ [true]) (pre ++ [w])), ends_true_nil, app_nil_r.
  reflexivity.
Qed.
Lemma counted_last : forall (needed : list bool -> Prop) pre p c seen, counted needed pre p seen -> (c = true -> ~ needed p) ->
  counted needed (pre ++ [p ++ [c]]) [] seen.
Proof.
  intros needed pre p c seen H HN. apply counted_word. intros q Hq. rewrite H by exact Hq. rewrite !ends_words, !app_length.
  rewrite ends_true_len; [reflexivity|]. destruct c; [left|right; reflexivity]. intros ->. exact (HN eq_refl Hq).
Qed.

Definition wordsOf (ws : list word) : list (list bool) := map fst ws.

Section Message.
Variables (T0 : wtree) (codes : list (N * list bool)) (intTree : wtree) (WW : N).
Hypothesis HC : code_tree T0 codes.
Hypothesis HF : full intTree.
Hypothesis HW : (WW <= 15)%N.
Variable W : list (list bool).
Hypothesis HR : Forall (fun w => exists c x, runWord T0 intTree WW c x w) W.
Variable T : wtree.
Hypothesis HCOL : forall q b s, In (b :: s) (ends q W) -> exists n, look T q = Some n /\ bitVector n = heads (ends q W).
Hypothesis HSYM : forall q n s, look T0 q = Some n -> In s (ends q W) -> exists n', look T q = Some n' /\ symbol n' = symbol n.

Lemma W_noPrefix : noPrefix W.
Proof. eapply runWords_noPrefix; [exact HC|exact HF|exact HR]. Qed.

Definition escWord (w : list bool) (cc esc : list bool) (k : nat) (bits : list bool) : Prop :=
  (exists c, look T0 cc = Some (mkNode [] (Some c))) /\ look intTree esc = Some (mkNode [] (Some 0%N)) /\
  w = cc ++ esc ++ repeat true k ++ false :: bits /\ length bits = k + N.to_nat WW.

(** The path down to which the counters are used for a word. *)
Inductive used (w : list bool) : list bool -> Prop :=
| used_huffman : forall cc ic c x, w = cc ++ ic -> look T0 cc = Some (mkNode [] (Some c)) ->
    look intTree ic = Some (mkNode [] (Some x)) -> x <> 0%N -> used w w
| used_escape : forall cc esc k bits, escWord w cc esc k bits -> used w (removelast w).
Definition needed (q : list bool) : Prop := exists w pw b r, In w W /\ used w pw /\ pw = q ++ b :: r.

Lemma word_parts : forall w p b r, In w W -> w = p ++ b :: r -> forall cc esc k bits, In (p ++ [true]) W -> 
  escWord (p ++ [true]) cc esc k bits -> exists bits', escWord w cc esc k bits' /\ r = [].
Proof.
  intros w p b r Hw Ew cc esc k bits Hp (HLc & HLe & E & HL).
  destruct HLc as (c & HLc).
  assert (NB : bits <> []).
  { intros ->. assert (C : last (p ++ [true]) false = last (cc ++ esc ++ repeat true k ++ [false]) false) by (rewrite E; reflexivity).
    rewrite !app_assoc in C. rewrite !last_last in C. discriminate. }
  destruct (@exists_last _ bits NB) as (bits0 & lb & Eb). subst bits.
  assert (EP : p = cc ++ esc ++ repeat true k ++ false :: bits0 /\ lb = true).
  { replace (cc ++ esc ++ repeat true k ++ false :: bits0 ++ [lb]) with ((cc ++ esc ++ repeat true k ++ false :: bits0) ++ [lb]) in E
      by (rewrite <- !app_assoc; reflexivity).
    apply app_inj_tail in E. destruct E as [-> <-]. auto. }
  destruct EP as [EP ->]. subst p.
  rewrite Forall_forall in HR. destruct (HR _ Hw) as (c' & x' & cc' & ic' & E1 & L1 & V1 & X1 & N1).
  assert (CC : cc' = cc /\ ic' = esc ++ repeat true k ++ false :: bits0 ++ b :: r).
  { rewrite Ew, <- !app_assoc in E1. cbn [app] in E1. apply common_prefix in E1.
    destruct E1 as [([|y e] & E2 & E3)|([|y e] & E2 & E3)]; cbn [app] in E3.
    - rewrite app_nil_r in E2. rewrite E3. auto.
    - exfalso. rewrite E2 in L1. rewrite (ct_beyond _ _ HC _ _ _ _ HLc) in L1. discriminate.
    - rewrite app_nil_r in E2. rewrite E3. auto.
    - exfalso. rewrite E2 in HLc. rewrite (ct_beyond _ _ HC _ _ _ _ L1) in HLc. discriminate. }
  destruct CC as [-> ->].
  pose proof (intWord_valid _ _ _ _ HF X1 V1) as VV. apply (valid_at _ _ HF _ _ _ HLe) in VV.
  inversion VV as [|s Hs E2 E3|j v Hj Hv E3| |]; [congruence|].
  assert (E4 : repeat true j ++ false :: v = (repeat true k ++ false :: (bits0 ++ b :: r)) ++ []) by (rewrite app_nil_r; assumption).
  apply ones_prefix in E4. destruct E4 as [-> E4]. rewrite app_nil_r in E4. subst v.
  rewrite !app_length in *. cbn [length] in *. assert (r = []) by (destruct r; [reflexivity|cbn in *; lia]). subst r.
  exists (bits0 ++ [b]). split; [|reflexivity]. split; [eauto|]. split; [exact HLe|]. split.
  - rewrite Ew, <- !app_assoc. reflexivity.
  - rewrite app_length. exact Hv.
Qed.

Lemma not_needed : forall p cc esc k bits, In (p ++ [true]) W -> escWord (p ++ [true]) cc esc k bits -> ~ needed p.
Proof.
  intros p cc esc k bits Hp HE (w & pw & b & r & Hw & Hu & E).
  assert (G : exists r', w = p ++ b :: r').
  { destruct Hu as [cc' ic' c' x' E1 L1 L2 X|cc' esc' k' bits' HE']; [eauto|].
    assert (w <> []). { intros ->. destruct p; discriminate. }
    rewrite (app_removelast_last false H), E, <- app_assoc. eexists. reflexivity. }
  destruct G as (r' & Ew). destruct (word_parts w p b r' Hw Ew cc esc k bits Hp HE) as (bits' & (HL1 & HL2 & HL3 & HL4) & ->).
  destruct Hu as [cc' ic' c' x' E1 L1 L2 X|cc' esc' k' bits'' HE'].
  - destruct HL1 as (c & HL1). rewrite E1 in HL3. apply common_prefix in HL3.
    destruct HL3 as [([|y e] & E2 & E3)|([|y e] & E2 & E3)]; cbn [app] in E3.
    + subst ic'. destruct k; cbn in L2; rewrite (full_leaf_end _ HF _ _ _ _ HL2) in L2; discriminate.
    + rewrite E2 in HL1. rewrite (ct_beyond _ _ HC _ _ _ _ L1) in HL1. discriminate.
    + subst ic'. destruct k; cbn in L2; rewrite (full_leaf_end _ HF _ _ _ _ HL2) in L2; discriminate.
    + rewrite E2 in L1. rewrite (ct_beyond _ _ HC _ _ _ _ HL1) in L1. discriminate.
  - rewrite Ew, removelast_last in E. apply (f_equal (@length bool)) in E. rewrite app_length in E. cbn in E. lia.
Qed.

Lemma needed_used : forall w pw q b r, In w W -> used w pw -> pw = q ++ b :: r -> needed q.
Proof. intros. exists w, pw, b, r. auto. Qed.

(** A tree that has the symbols of the integer code tree below the characters. *)
Definition integersShown : Prop := forall cc c u n s, look T0 cc = Some (mkNode [] (Some c)) -> u <> [] -> look intTree u = Some n ->
  In s (ends (cc ++ u) W) -> exists n', look T (cc ++ u) = Some n' /\ symbol n' = symbol n.
(** A tree that has the run lengths at the ends of the words only. *)
Definition lengthsShown : Prop := forall c x cc ic, In (cc ++ ic) W -> look T0 cc = Some (mkNode [] (Some c)) -> intWord intTree WW x ic -> x <> 0%N ->
  (forall u b v, u <> [] -> ic = u ++ b :: v -> exists n, look T (cc ++ u) = Some n /\ symbol n = None) /\
  (exists n, look T (cc ++ ic) = Some n /\ symbol n = Some x).

Variable wv : wavelet.
Hypothesis Hwv1 : w_intTree wv = intTree.
Hypothesis Hwv2 : w_W wv = WW.

(** The walk to the byte. *)
Lemma walk_character : forall nd w cc ic c pre post seen, W = pre ++ w :: post -> w = cc ++ ic -> look T0 cc = Some (mkNode [] (Some c)) ->
  counted nd pre [] seen -> (forall u b v, cc = u ++ b :: v -> nd u) ->
  exists seen', walk (height T) T seen [] (length pre) = Ok (c, length (ends cc pre), cc, seen') /\ counted nd pre cc seen'.
Proof.
  intros nd w cc ic c pre post seen EW Ew HL HK HN.
  assert (Hin : In w W) by (rewrite EW; apply in_app_iff; right; left; reflexivity).
  assert (He : forall u v, cc = u ++ v -> In (v ++ ic) (ends u W)).
  { intros u v E. apply ends_in. rewrite app_assoc, <- E, <- Ew. exact Hin. }
  destruct (HSYM cc _ ic HL) as (n & L1 & L2). { specialize (He cc [] ltac:(rewrite app_nil_r; reflexivity)). exact He. }
  destruct (walk_spec T W W_noPrefix HCOL nd cc [] ic pre post seen (height T) c) as (seen' & E' & C').
  - rewrite EW, Ew. reflexivity.
  - intros ->. pose proof (ct_root _ _ HC). congruence.
  - assert (length cc < height T); [|lia]. apply look_height. rewrite L1. discriminate.
  - exact HK.
  - exact HN.
  - intros u b v Hu E. cbn [app].
    assert (LU : look T0 u = Some (mkNode [] None)) by (eapply (ct_prefix _ _ HC); rewrite <- E; exact HL).
    destruct (HSYM u _ ((b :: v) ++ ic) LU) as (n' & M1 & M2); [apply He; exact E|]. exists n'. auto.
  - exists n. auto.
  - exists seen'. cbn [app] in E'. split; [exact E'|exact C'].
Qed.

(** The part behind the code of 0. *)
Lemma read_fixed : forall (nd : list bool -> Prop) w p k v c pre post seen, W = pre ++ w :: post ->
  w = p ++ repeat true k ++ false :: be_bits (k + N.to_nat WW) v -> k <= 32 ->
  (v < 2 ^ N.of_nat (k + N.to_nat WW))%N -> (v + 1 + 2 ^ WW * (2 ^ N.of_nat k - 1) < 2 ^ 32)%N ->
  counted nd pre p seen ->
  (forall q b r, removelast w = q ++ b :: r -> nd q) -> (last w false = true -> ~ nd (removelast w)) ->
  exists seen',
    (let! (k, i, p, seen) := leading (S (height T)) T seen p (length (ends p pre)) in
     let! (v, seen) := readValue (k + N.to_nat WW) T seen p i false 0 in
     Ok ((c : N) mod 256, (v + fixedIntegerCodeTranslation (N.of_nat k) WW) mod two64, seen))%N =
    Ok (c mod 256, v + 1 + 2 ^ WW * (2 ^ N.of_nat k - 1), seen')%N /\
    counted nd (pre ++ [w]) [] seen'.
Proof.
  intros nd w p k v c pre post seen EW Ew Hk Hv HB HK HN HNN.
  set (bits := be_bits (k + N.to_nat WW) v) in *.
  assert (LB : length bits = k + N.to_nat WW) by apply be_bits_length.
  assert (ER : removelast w = p ++ repeat true k ++ removelast (false :: bits)).
  { rewrite Ew, app_assoc. rewrite removelast_app by discriminate. rewrite <- app_assoc. reflexivity. }
  assert (Hin : In w W) by (rewrite EW; apply in_app_iff; right; left; reflexivity).
  destruct (leading_spec T W W_noPrefix HCOL nd k p bits pre post seen (S (height T))) as (seen1 & E1 & C1).
  - rewrite EW, Ew. reflexivity.
  - destruct (HCOL (p ++ repeat true k) false bits) as (n & L1 & L2).
    { apply ends_in. rewrite <- app_assoc, <- Ew. exact Hin. }
    assert (length (p ++ repeat true k) < height T) by (apply look_height; rewrite L1; discriminate).
    rewrite app_length, repeat_length in H. lia.
  - exact HK.
  - intros i Hi.
    apply (HN (p ++ repeat true i) true (repeat true (k - 1 - i) ++ removelast (false :: bits))).
    rewrite ER. rewrite <- app_assoc. f_equal. replace k with (i + S (k - 1 - i)) at 1 by lia. rewrite repeat_app, <- app_assoc. reflexivity.
  - rewrite E1. cbn [bind].
    destruct (readValue_spec T W W_noPrefix HCOL nd bits (p ++ repeat true k) false pre post seen1 []) as (seen2 & E2 & C2).
    + rewrite EW, Ew, <- app_assoc. reflexivity.
    + cbn [app]. lia.
    + exact C1.
    + intros u x y E. rewrite <- app_assoc.
      assert (EQ : exists b r, removelast (false :: bits) = removelast (false :: u) ++ b :: r).
      { exists (last (false :: u) false), (removelast (x :: y)). rewrite E. clear.
        assert (A : removelast ((false :: u) ++ x :: y) = (false :: u) ++ removelast (x :: y)) by (apply removelast_app; discriminate).
        assert (B : false :: u = removelast (false :: u) ++ [last (false :: u) false]) by (apply app_removelast_last; discriminate).
        change (false :: u ++ x :: y) with ((false :: u) ++ x :: y). rewrite A. rewrite B at 1. rewrite <- app_assoc. reflexivity. }
      destruct EQ as (b & r & EQ). apply (HN _ b r). rewrite ER, EQ, !app_assoc. reflexivity.
    + rewrite <- LB. change 0%N with (be_val []). rewrite E2. cbn [bind app].
      exists seen2. split.
      * do 3 f_equal. rewrite translation_spec by lia. unfold bits. rewrite be_bits_val by exact Hv.
        rewrite N.mod_small; [lia|]. change (2 ^ 32)%N with 4294967296%N in HB. unfold two64. lia.
      * assert (NE : w <> []) by (rewrite Ew; destruct p, k; discriminate).
        rewrite (app_removelast_last false NE) at 1. apply counted_last; [|exact HNN].
        rewrite ER. rewrite <- app_assoc in C2. exact C2.
Qed.

Lemma readRun_decoded : forall w c x pre post seen, integersShown -> (c < 256)%N -> (x < 2 ^ 32)%N ->
  W = pre ++ w :: post -> runWord T0 intTree WW c x w -> counted needed pre [] seen ->
  exists seen', readRun wv T seen (length pre) = Ok (c, x, seen') /\ counted needed (pre ++ [w]) [] seen'.
Proof.
  intros w c x pre post seen HI Hc Hx EW (cc & ic & Ew & HL & HIW & X0 & NI) HK.
  assert (Hin : In w W) by (rewrite EW; apply in_app_iff; right; left; reflexivity).
  assert (US : exists pw, used w pw /\ exists r, pw = cc ++ r).
  { destruct HIW as [HI1|(esc & k & v & L1 & L2 & L3 & L4 & L5)].
    - exists w. split; [|exists ic; exact Ew]. eapply used_huffman; eassumption.
    - exists (removelast w). split.
      + eapply used_escape. split; [exists c; exact HL|]. split; [exact L1|]. split; [rewrite Ew, L3; reflexivity|]. apply be_bits_length.
      + exists (removelast ic). rewrite Ew. apply removelast_app. exact NI. }
  destruct US as (pw & US & r & Epw).
  unfold readRun.
  destruct (walk_character needed w cc ic c pre post seen EW Ew HL HK) as (seen1 & E1 & C1).
  { intros u b v E. eapply (needed_used w pw u b (v ++ r) Hin US). rewrite Epw, E, <- app_assoc. reflexivity. }
  rewrite E1. cbn [bind]. rewrite Hwv1, Hwv2.
  assert (HCV : forall u v, ic = u ++ v -> In v (ends (cc ++ u) W)).
  { intros u v E. apply ends_in. rewrite <- app_assoc, <- E, <- Ew. exact Hin. }
  destruct HIW as [HI1|(esc & k & v & L1 & L2 & L3 & L4 & L5)].
  - destruct (full_cases _ HF) as [(s0 & Es & _)|(Es & _)].
    { destruct ic as [|b ic]; [congruence|]. rewrite Es in HI1. cbn in HI1. destruct b; rewrite look_nil_empty in HI1; discriminate. }
    rewrite Es.
    destruct (walk_spec T W W_noPrefix HCOL needed ic cc [] pre post seen1 (height T) x) as (seen2 & E2 & C2).
    + rewrite EW, Ew, app_nil_r. reflexivity.
    + exact NI.
    + destruct (HI cc c ic _ [] HL NI HI1) as (n & N1 & N2); [apply HCV; rewrite app_nil_r; reflexivity|].
      assert (length (cc ++ ic) < height T) by (apply look_height; rewrite N1; discriminate). rewrite app_length in H. lia.
    + exact C1.
    + intros u b v E. apply (needed_used w w (cc ++ u) b v Hin); [eapply used_huffman; eassumption|].
      rewrite Ew, E, <- app_assoc. reflexivity.
    + intros u b v Hu E.
      destruct (HI cc c u (mkNode [] None) (b :: v) HL Hu) as (n & N1 & N2).
      * eapply full_inside; [exact HF|]. rewrite <- E. exact HI1.
      * apply HCV. exact E.
      * exists n. auto.
    + destruct (HI cc c ic _ [] HL NI HI1) as (n & N1 & N2); [apply HCV; rewrite app_nil_r; reflexivity|]. exists n. auto.
    + rewrite E2. cbn [bind]. destruct (N.eqb_spec x 0); [contradiction|]. exists seen2. split.
      * rewrite N.mod_small by exact Hc. reflexivity.
      * apply counted_word. rewrite Ew. exact C2.
  - assert (EX : exists seen2, (match symbolOf intTree with
        | None => walk (height T) T seen1 cc (length (ends cc pre))
        | Some _ => Ok (0%N, length (ends cc pre), cc, seen1)
        end) = Ok (0%N, length (ends (cc ++ esc) pre), cc ++ esc, seen2) /\ counted needed pre (cc ++ esc) seen2).
    { destruct (full_cases _ HF) as [(s0 & Es & Es')|(Es & Er)].
      - destruct esc as [|b esc]; [|rewrite Es in L1; cbn in L1; destruct b; rewrite look_nil_empty in L1; discriminate].
        rewrite Es'. exists seen1. rewrite app_nil_r. split; [reflexivity|exact C1].
      - rewrite Es.
        assert (NE : esc <> []) by (intros ->; congruence).
        destruct (HI cc c esc _ (repeat true k ++ false :: be_bits (k + N.to_nat WW) v) HL NE L1) as (n & N1 & N2); [apply HCV; exact L3|].
        destruct (walk_spec T W W_noPrefix HCOL needed esc cc (repeat true k ++ false :: be_bits (k + N.to_nat WW) v) pre post seen1 (height T) 0%N) as (seen2 & E2 & C2).
        + rewrite EW, Ew, L3. reflexivity.
        + exact NE.
        + assert (length (cc ++ esc) < height T) by (apply look_height; rewrite N1; discriminate). rewrite app_length in H. lia.
        + exact C1.
        + intros u b v' E.
          apply (needed_used w (removelast w) (cc ++ u) b (v' ++ removelast (repeat true k ++ false :: be_bits (k + N.to_nat WW) v)) Hin).
          * eapply used_escape. split; [exists c; exact HL|]. split; [exact L1|]. split; [rewrite Ew, L3; reflexivity|]. apply be_bits_length.
          * assert (A : w = (cc ++ esc) ++ repeat true k ++ false :: be_bits (k + N.to_nat WW) v) by (rewrite Ew, L3, <- app_assoc; reflexivity).
            rewrite A, removelast_app by (destruct k; discriminate). rewrite E, <- !app_assoc. reflexivity.
        + intros u b v' Hu E.
          destruct (HI cc c u (mkNode [] None) (b :: v' ++ repeat true k ++ false :: be_bits (k + N.to_nat WW) v) HL Hu) as (n' & M1 & M2).
          * eapply full_inside; [exact HF|]. rewrite <- E. exact L1.
          * apply HCV. rewrite L3, E, <- app_assoc. reflexivity.
          * exists n'. auto.
        + exists n. auto.
        + exists seen2. split; [exact E2|exact C2]. }
    destruct EX as (seen2 & -> & C2). cbn [bind N.eqb].
    assert (EWW : w = (cc ++ esc) ++ repeat true k ++ false :: be_bits (k + N.to_nat WW) v) by (rewrite Ew, L3, <- app_assoc; reflexivity).
    assert (ESC : escWord w cc esc k (be_bits (k + N.to_nat WW) v)).
    { split; [exists c; exact HL|]. split; [exact L1|]. split; [rewrite Ew, L3; reflexivity|]. apply be_bits_length. }
    destruct (read_fixed needed w (cc ++ esc) k v c pre post seen2 EW EWW L2 L4) as (seen3 & E3 & C3).
    + rewrite <- L5. exact Hx.
    + exact C2.
    + intros q b r' E. eapply needed_used; [exact Hin|eapply used_escape; exact ESC|exact E].
    + intros EL. assert (NE : w <> []) by (rewrite EWW; destruct (cc ++ esc), k; discriminate).
      pose proof (app_removelast_last false NE) as AR. rewrite EL in AR.
      eapply not_needed; [rewrite <- AR; exact Hin|rewrite <- AR; exact ESC].
    + rewrite E3. exists seen3. rewrite N.mod_small by exact Hc. rewrite <- L5. split; [reflexivity|exact C3].
Qed.

(** On the tree of the encoder: the codes in the tree go on to the end of the words. *)
Lemma readRun_built : forall l r w c x pre post seen, intTree = inner l r -> lengthsShown -> (c < 256)%N ->
  W = pre ++ w :: post -> runWord T0 intTree WW c x w -> counted (fun _ => True) pre [] seen ->
  exists seen', readRun wv T seen (length pre) = Ok (c, x, seen') /\ counted (fun _ => True) (pre ++ [w]) [] seen'.
Proof.
  intros l r w c x pre post seen EI HI Hc EW (cc & ic & Ew & HL & HIW & X0 & NI) HK.
  assert (Hin : In w W) by (rewrite EW; apply in_app_iff; right; left; reflexivity).
  unfold readRun.
  destruct (walk_character (fun _ => True) w cc ic c pre post seen EW Ew HL HK) as (seen1 & E1 & C1); [auto|].
  rewrite E1. cbn [bind]. rewrite Hwv1, EI. change (symbolOf (inner l r)) with (@None N).
  destruct (HI c x cc ic) as (S1 & S2); [rewrite <- Ew; exact Hin|exact HL|exact HIW|exact X0|].
  destruct (walk_spec T W W_noPrefix HCOL (fun _ => True) ic cc [] pre post seen1 (height T) x) as (seen2 & E2 & C2).
  - rewrite EW, Ew, app_nil_r. reflexivity.
  - exact NI.
  - destruct S2 as (n & N1 & _). assert (length (cc ++ ic) < height T) by (apply look_height; rewrite N1; discriminate).
    rewrite app_length in H. lia.
  - exact C1.
  - auto.
  - exact S1.
  - exact S2.
  - rewrite E2. cbn [bind]. destruct (N.eqb_spec x 0); [contradiction|]. exists seen2. split.
    + rewrite N.mod_small by exact Hc. reflexivity.
    + apply counted_word. rewrite Ew. exact C2.
Qed.

Lemma counted_start : forall nd, counted nd [] [] Empty.
Proof. intros nd q _. cbn [app]. rewrite ends_true_nil. unfold seenAt. rewrite look_nil_empty. reflexivity. Qed.

Lemma loop_spec : forall nd,
  (forall w c x pre post seen, (c < 256)%N -> (x < 2 ^ 32)%N -> W = pre ++ w :: post -> runWord T0 intTree WW c x w -> counted nd pre [] seen ->
     exists seen', readRun wv T seen (length pre) = Ok (c, x, seen') /\ counted nd (pre ++ [w]) [] seen') ->
  forall runs ws pre seen, runWords T0 intTree WW runs ws -> Forall (fun r => (fst r < 256)%N /\ (N.of_nat (snd r) < 2 ^ 32)%N) runs ->
  W = pre ++ map fst ws -> counted nd pre [] seen ->
  messageLoop (length ws) wv T seen (length pre) = Ok (concat (map (fun r => repeat (fst r) (snd r)) runs)).
Proof.
  intros nd HRR. induction runs as [|[c k] runs IH]; intros ws pre seen HRW HB EW HK; inversion HRW as [|? [w x] ? ws' [H1 H2] H3 E1 E2]; subst ws;
    cbn [length messageLoop]; [reflexivity|].
  cbn [fst snd] in H1, H2. subst x. inversion HB as [|? ? [B1 B2] B3 E3]. cbn [fst snd] in B1, B2.
  cbn [map fst] in EW. destruct (HRR w c (N.of_nat k) pre (map fst ws') seen B1 B2 EW H1 HK) as (seen' & -> & C'). cbn [bind].
  replace (S (length pre)) with (length (pre ++ [w])) by (rewrite app_length; cbn; lia).
  rewrite (IH ws' (pre ++ [w]) seen').
  - cbn [bind map concat fst snd]. rewrite Nat2N.id. reflexivity.
  - exact H3.
  - exact B3.
  - rewrite EW, <- app_assoc. reflexivity.
  - exact C'.
Qed.
End Message.

Lemma runWord_nonempty : forall T0 t W c x w, runWord T0 t W c x w -> w <> [].
Proof. intros T0 t W c x w (cc & ic & -> & _ & _ & _ & N) C. apply app_eq_nil in C. tauto. Qed.

Lemma message_root : forall T0 t WW runs ws T, runWords T0 t WW runs ws -> runs <> [] ->
  (forall q b s, In (b :: s) (ends q (wordsOf ws)) -> exists n, look T q = Some n /\ bitVector n = heads (ends q (wordsOf ws))) ->
  exists n, look T [] = Some n /\ length (bitVector n) = length ws.
Proof.
  intros T0 t WW runs ws T HR HN HCOL. destruct HR as [|run w runs ws [H1 H2] HR]; [congruence|].
  pose proof (runWord_nonempty _ _ _ _ _ _ H1) as NE. destruct w as [[|b s] x]; [cbn in NE; congruence|].
  destruct (HCOL [] b s) as (n & E1 & E2); [left; reflexivity|]. exists n. split; [exact E1|]. rewrite E2. cbn [ends].
  rewrite heads_length; [unfold wordsOf; apply map_length|].
  constructor; [cbn; discriminate|]. apply Forall_forall. intros w Hw. apply in_map_iff in Hw. destruct Hw as (w' & <- & Hw).
  assert (G : exists c y, runWord T0 t WW c y (fst w')).
  { clear - HR Hw. induction HR as [|? ? ? ? [A1 A2] ? IH]; [destruct Hw|]. destruct Hw as [<-|Hw]; eauto. }
  destruct G as (c & y & G). eapply runWord_nonempty. exact G.
Qed.

(** The decoder's tree. *)
Lemma message_decoded : forall T0 codes intTree intCodes WW runs ws T, code_tree T0 codes -> full intTree -> (WW <= 15)%N ->
  runWords T0 intTree WW runs ws -> runs <> [] -> Forall (fun r => (fst r < 256)%N /\ (N.of_nat (snd r) < 2 ^ 32)%N) runs ->
  (forall q b s, In (b :: s) (ends q (wordsOf ws)) -> exists n, look T q = Some n /\ bitVector n = heads (ends q (wordsOf ws))) ->
  (forall q n s, look T0 q = Some n -> In s (ends q (wordsOf ws)) -> exists n', look T q = Some n' /\ symbol n' = symbol n) ->
  integersShown T0 intTree (wordsOf ws) T -> forall root,
  message (mkWavelet root codes intTree intCodes WW) T = Ok (concat (map (fun r => repeat (fst r) (snd r)) runs)).
Proof.
  intros T0 codes intTree intCodes WW runs ws T HC HF HW HR HN HB HCOL HSYM HI root. unfold message.
  destruct (message_root _ _ _ _ _ _ HR HN HCOL) as (n & -> & ->).
  change 0 with (length (@nil (list bool))).
  eapply loop_spec with (T0 := T0) (intTree := intTree) (WW := WW) (W := wordsOf ws) (nd := needed T0 intTree WW (wordsOf ws)); eauto.
  - intros w c x pre post seen Hc Hx EW HRW HK.
    eapply (readRun_decoded T0 codes intTree WW HC HF HW (wordsOf ws)); try eassumption; try reflexivity.
    eapply runWords_all; exact HR.
  - apply counted_start.
Qed.

(** The encoder's tree. *)
Lemma message_built : forall T0 codes intTree intCodes WW runs ws T, code_tree T0 codes -> full intTree -> (WW <= 15)%N ->
  runWords T0 intTree WW runs ws -> runs <> [] -> Forall (fun r => (fst r < 256)%N /\ (N.of_nat (snd r) < 2 ^ 32)%N) runs ->
  (forall q b s, In (b :: s) (ends q (wordsOf ws)) -> exists n, look T q = Some n /\ bitVector n = heads (ends q (wordsOf ws))) ->
  (forall q n s, look T0 q = Some n -> In s (ends q (wordsOf ws)) -> exists n', look T q = Some n' /\ symbol n' = symbol n) ->
  lengthsShown T0 intTree WW (wordsOf ws) T -> forall root,
  message (mkWavelet root codes intTree intCodes WW) T = Ok (concat (map (fun r => repeat (fst r) (snd r)) runs)).
Proof.
  intros T0 codes intTree intCodes WW runs ws T HC HF HW HR HN HB HCOL HSYM HI root.
  destruct HF as [s0|l r Hl Hr].
  - eapply message_decoded; try eassumption; [constructor|]. intros cc c u n s _ Hu E.
    destruct u as [|b u]; [congruence|]. cbn in E. destruct b; rewrite look_nil_empty in E; discriminate.
  - unfold message. destruct (message_root _ _ _ _ _ _ HR HN HCOL) as (n & -> & ->).
    change 0 with (length (@nil (list bool))).
    assert (HF : full (inner l r)) by (constructor; assumption).
    eapply loop_spec with (T0 := T0) (intTree := inner l r) (WW := WW) (W := wordsOf ws) (nd := fun _ => True); eauto.
    + intros w c x pre post seen Hc Hx EW HRW HK.
      eapply (readRun_built T0 codes (inner l r) WW HC HF HW (wordsOf ws)); try eassumption; try reflexivity.
      eapply runWords_all; exact HR.
    + apply counted_start.
Qed.

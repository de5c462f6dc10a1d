(** When the codes of the run lengths can be chosen. *)
From Coq Require Import List NArith Arith Bool Lia Sorted Permutation.
From Coq Require Import ZifyBool ZifyNat ZifyN.
From Verif Require Import Base Arrays ModelUtils ModelHuffman ModelWavelet SpecHuffman.
From Verif Require ProofHuffCoder3.
From Verif Require Import ProofHuffman4 ProofWav1 ProofWav2 ProofWav3.
Import ListNotations.
Open Scope N_scope.

Lemma mapPut_keys : forall m k v x, In x (map fst (mapPut m k v)) <-> x = k \/ In x (map fst m).
Proof.
  induction m as [|[k' v'] m IH]; intros k v x; cbn [mapPut].
  - cbn. intuition congruence.
  - destruct (N.eqb_spec k' k) as [->|NE]; [cbn; intuition congruence|]. destruct (k' <? k); [cbn; intuition congruence|].
    cbn [map fst In]. rewrite IH. intuition congruence.
Qed.

Section Total.
Variable worth : N -> N -> N -> bool.
Variable total : N.

(** The integer is chosen for a code of its own in the first loop. *)
Definition taken (w depth : N) (p : N * N) : bool :=
  match lengthOfFixedCode (snd p) w with
  | Ok len => worth total (fst p) ((fst p * ((depth + len) mod two32)) mod two64) && (10 <=? fst p)
  | _ => false
  end.

(** Integers marked as removed are in the list. *)
Definition marked (fs : list (N * N)) (removed : list bool) (cl : list (N * N)) : Prop :=
  forall k, nth_error removed k = Some true -> exists p, nth_error fs k = Some p /\ In p cl.
Lemma marked_more : forall fs removed cl p, marked fs removed cl -> marked fs removed (cl ++ [p]).
Proof. intros fs removed cl p H k E. destruct (H k E) as (q & E1 & E2). exists q. split; [exact E1|]. apply in_app_iff. left. exact E2. Qed.
Lemma marked_step : forall fs removed cl k p, marked fs removed cl -> length removed = length fs -> nth_error fs k = Some p ->
  marked fs (upd removed k true) (cl ++ [p]).
Proof.
  intros fs removed cl k p H L E j Ej. rewrite nth_error_upd in Ej by (rewrite L; eapply nth_error_bound; exact E).
  destruct (Nat.eqb_spec j k) as [EJ|NJ]; [rewrite EJ; exists p; split; [exact E|apply in_app_iff; right; left; reflexivity]|].
  apply (marked_more fs removed cl p H j Ej).
Qed.

Lemma guess_total : forall w depth r pre removed nr cl mf, w <= 15 -> Forall (fun p => 1 <= snd p < 2 ^ 32) r ->
  length removed = length (pre ++ r) -> marked (pre ++ r) removed cl ->
  exists removed' nr' mf', guess worth w depth total r (length pre) (removed, nr, cl, mf) = Ok (removed', nr', cl ++ filter (taken w depth) r, mf') /\
    length removed' = length removed /\ marked (pre ++ r) removed' (cl ++ filter (taken w depth) r) /\
    (forall k, In k (map fst nr') <-> In k (map fst nr) \/ exists x, In (k, x) r /\ taken w depth (k, x) = false).
Proof.
  intros w depth r. induction r as [|[f x] r IH]; intros pre removed nr cl mf Hw HX HL HM.
  - exists removed, nr, mf. cbn [guess filter]. rewrite app_nil_r. split; [reflexivity|]. split; [reflexivity|]. split; [exact HM|].
    intros k. split; [auto|]. intros [H|(x & [] & _)]. exact H.
  - inversion_clear HX as [|? ? X1 X2]. cbn [snd] in X1. destruct (fixed_form x w X1 Hw) as (k0 & v0 & _ & EL & _).
    cbn [guess]. rewrite EL. cbn [bind filter]. assert (TD : taken w depth (f, x) = worth total f ((f * ((depth + N.of_nat (2 * k0 + N.to_nat w + 1)) mod two32)) mod two64) && (10 <=? f)) by (unfold taken; cbn [fst snd]; rewrite EL; reflexivity).
    rewrite <- TD. 
    replace (S (length pre)) with (length (pre ++ [(f, x)])) by (rewrite app_length; cbn; lia).
    assert (EP : pre ++ (f, x) :: r = (pre ++ [(f, x)]) ++ r) by (rewrite <- app_assoc; reflexivity). rewrite EP in HL, HM |- *. clear EP.
    assert (NE : nth_error ((pre ++ [(f, x)]) ++ r) (length pre) = Some (f, x)).
    { rewrite <- app_assoc, nth_error_app2, Nat.sub_diag by lia. reflexivity. }
    destruct (taken w depth (f, x)) eqn:TK.
    + destruct (IH (pre ++ [(f, x)]) (upd removed (length pre) true) nr (cl ++ [(f, x)]) (smaller mf f) Hw X2) as (removed' & nr' & mf' & E1 & E2 & E3 & E4).
      { rewrite upd_length. exact HL. } { apply marked_step; assumption. }
      exists removed', nr', mf'. rewrite <- (app_assoc cl) in E1, E3. cbn [app] in E1, E3. rewrite E1. split; [reflexivity|].
      split; [rewrite E2; apply upd_length|]. split; [exact E3|].
      intros k. rewrite E4. split; intros [H|(y & H1 & H2)]; auto.
      * right. exists y. split; [right; exact H1|exact H2].
      * destruct H1 as [H1|H1]; [|right; exists y; split; assumption]. injection H1 as <- <-. congruence.
    + destruct (IH (pre ++ [(f, x)]) removed (mapPut nr f (length pre)) cl mf Hw X2 HL HM) as (removed' & nr' & mf' & E1 & E2 & E3 & E4).
      exists removed', nr', mf'. split; [exact E1|]. split; [exact E2|]. split; [exact E3|].
      intros k. rewrite E4, mapPut_keys. split; [intros [[->|H]|(y & H1 & H2)]|intros [H|(y & H1 & H2)]]; auto.
      * right. exists x. split; [left; reflexivity|exact TK].
      * right. exists y. split; [right; exact H1|exact H2].
      * destruct H1 as [H1|H1]; [injection H1 as <- <-; auto|right; exists y; split; assumption].
Qed.

Lemma force_total : forall fuel fs i depth it removed cl mf, length removed = length fs -> marked fs removed cl ->
  Forall (fun e => (snd e < length fs)%nat) it -> (depth <= i + length cl + 2 * fuel)%nat -> (depth <= i + length cl + 2 * length it)%nat ->
  exists removed' cl' mf', force fuel i depth fs it removed cl mf = Ok (removed', cl', mf') /\ length removed' = length fs /\ marked fs removed' cl'.
Proof.
  induction fuel as [|fuel IH]; intros fs i depth it removed cl mf HL HM HI HF HD; cbn [force]; destruct (Nat.ltb_spec (i + length cl) depth) as [B|B].
  - lia.
  - eauto 8.
  - destruct it as [|[f k] it]; [cbn in HD; lia|]. inversion_clear HI as [|? ? I1 I2]. cbn [snd] in I1.
    destruct (nth_error_lt fs k I1) as (p & E). rewrite (get_ok _ _ _ E). cbn [bind]. apply IH.
    + rewrite upd_length. exact HL.
    + apply marked_step; assumption.
    + exact I2.
    + rewrite app_length. cbn [length]. lia.
    + rewrite app_length. cbn [length] in *. lia.
  - eauto 8.
Qed.

Lemma findFixed_total : forall j L, (exists k p, (k <= j)%nat /\ nth_error L k = Some p /\ snd p = 0) -> (j < length L)%nat ->
  exists k p, findFixed j L = Ok k /\ nth_error L k = Some p /\ snd p = 0.
Proof.
  induction j as [|j IH]; intros L (k & p & H1 & H2 & H3) HL; cbn [findFixed].
  - replace k with O in H2 by lia. rewrite (get_ok _ _ _ H2). cbn [bind]. rewrite H3, N.eqb_refl. eauto.
  - destruct (nth_error_lt L (S j) HL) as (q & E). rewrite (get_ok _ _ _ E). cbn [bind]. destruct (N.eqb_spec (snd q) 0) as [Z|NZ]; [eauto|].
    apply IH; [|lia]. exists k, p. split; [|auto]. assert (k <> S j) by congruence. lia.
Qed.

Lemma sinkFixed_total : forall j depth L p, nth_error L j = Some p -> snd p = 0 ->
  exists j' L' q, sinkFixed j depth L = Ok (j', L') /\ nth_error L' j' = Some q /\ snd q = 0 /\ map fst L' = map fst L /\
    forall x, In x (map snd L) -> In x (map snd L').
Proof.
  induction j as [|j IH]; intros depth L p E Z; cbn [sinkFixed].
  - exists O, L, p. auto.
  - pose proof (nth_error_bound _ _ _ E) as B. destruct (nth_error_lt L j ltac:(lia)) as (q & Eq).
    rewrite (get_ok _ _ _ Eq), (get_ok _ _ _ E). cbn [bind].
    destruct (depth <=? fst q); [|exists (S j), L, p; auto].
    set (L1 := upd (upd L (S j) (fst p, snd q)) j (fst q, snd p)).
    assert (N1 : forall i, nth_error L1 i = if (i =? j)%nat then Some (fst q, snd p) else if (i =? S j)%nat then Some (fst p, snd q) else nth_error L i).
    { intros i. unfold L1. rewrite nth_error_upd by (rewrite upd_length; lia). destruct (i =? j)%nat; [reflexivity|]. apply nth_error_upd. exact B. }
    destruct (IH depth L1 (fst q, snd p)) as (j' & L' & q' & E1 & E2 & E3 & E4 & E5).
    { rewrite N1, Nat.eqb_refl. reflexivity. } { exact Z. }
    exists j', L', q'. split; [exact E1|]. split; [exact E2|]. split; [exact E3|]. split.
    + rewrite E4. apply nth_error_ext. intros i. destruct (Nat.eq_dec i j) as [->|NJ].
      * rewrite (map_nth_error fst _ _ (eq_trans (N1 j) ltac:(rewrite Nat.eqb_refl; reflexivity))), (map_nth_error fst _ _ Eq). reflexivity.
      * destruct (Nat.eq_dec i (S j)) as [->|NS].
        { assert (G : nth_error L1 (S j) = Some (fst p, snd q)). { rewrite N1. replace (S j =? j)%nat with false by lia. rewrite Nat.eqb_refl. reflexivity. }
          rewrite (map_nth_error fst _ _ G), (map_nth_error fst _ _ E). reflexivity. }
        { assert (G : nth_error L1 i = nth_error L i). { rewrite N1. replace (i =? j)%nat with false by lia. replace (i =? S j)%nat with false by lia. reflexivity. }
          destruct (nth_error L i) as [c|] eqn:EC; [rewrite (map_nth_error fst _ _ G), (map_nth_error fst _ _ EC); reflexivity|].
          apply nth_error_None in G, EC. transitivity (@None N); [|symmetry]; apply nth_error_None; rewrite map_length; assumption. }
    + intros x Hx. apply E5. apply in_map_iff in Hx. destruct Hx as (c & <- & Hc). destruct (In_nth_error _ _ Hc) as (i & Ei).
      apply in_map_iff. destruct (Nat.eq_dec i j) as [->|NJ].
      * rewrite Eq in Ei. injection Ei as <-. exists (fst p, snd q). split; [reflexivity|]. apply nth_error_In with (n := S j). rewrite N1. replace (S j =? j)%nat with false by lia. rewrite Nat.eqb_refl. reflexivity.
      * destruct (Nat.eq_dec i (S j)) as [->|NS].
        { rewrite E in Ei. injection Ei as <-. exists (fst q, snd p). split; [reflexivity|]. apply nth_error_In with (n := j). rewrite N1, Nat.eqb_refl. reflexivity. }
        { exists c. split; [reflexivity|]. apply nth_error_In with (n := i). rewrite N1. replace (i =? j)%nat with false by lia. replace (i =? S j)%nat with false by lia. exact Ei. }
Qed.

Lemma lastLength_pos : forall CL x, Forall (fun d => 1 <= d < two32) (map fst CL) -> In x (map snd CL) -> 1 <= lastLength CL x < two32.
Proof.
  intros CL x HF HI. unfold lastLength.
  assert (G : forall l a, Forall (fun d => 1 <= d < two32) (map fst l) -> 1 <= a < two32 \/ In x (map snd l) ->
    1 <= fold_left (fun a p => if snd p =? x then fst p mod two32 else a) l a < two32).
  { induction l as [|p l IH]; intros a H1 H2; cbn [fold_left].
    - destruct H2 as [H2|[]]. exact H2.
    - cbn [map] in H1. inversion_clear H1 as [|? ? A1 A2]. apply IH; [exact A2|].
      destruct (N.eqb_spec (snd p) x) as [Ex|Nx]; [left; rewrite N.mod_small by lia; exact A1|].
      destruct H2 as [H2|[H2|H2]]; [left; exact H2|congruence|right; exact H2]. }
  apply G; [exact HF|right; exact HI].
Qed.

Lemma semi_total : forall w CL freqs removed a, w <= 15 -> length removed = length freqs -> Forall (fun p => 1 <= snd p < 2 ^ 32) freqs ->
  Forall (fun d => 1 <= d < two32) (map fst CL) -> Forall2 (fun p b => b = true -> In (snd p) (map snd CL)) freqs removed ->
  a + sumFst freqs * two32 < two64 -> exists t, semiBits w 0 CL freqs removed a = Ok t /\ a + sumFst freqs <= t < two64.
Proof.
  intros w CL freqs removed a Hw _ HX HC HR. revert a HX. induction HR as [|[f x] b freqs removed Hb HR IH]; intros a HX HB.
  - exists a. cbn [semiBits sumFst fold_right] in *. split; [reflexivity|lia].
  - inversion_clear HX as [|? ? X1 X2]. cbn [snd] in *. cbn [semiBits]. unfold sumFst in HB. cbn [fold_right fst] in HB. fold (sumFst freqs) in HB.
    assert (G : exists len, (if b then Ok (lastLength CL x) else let! l := lengthOfFixedCode x w in Ok ((0 + l) mod two32)) = Ok len /\ 1 <= len < two32).
    { destruct b; [exists (lastLength CL x); split; [reflexivity|]; apply lastLength_pos; auto|].
      destruct (fixed_form x w X1 Hw) as (k & v & _ & EL & BK & _). rewrite EL. cbn [bind]. eexists. split; [reflexivity|].
      rewrite N.add_0_l, N.mod_small; unfold two32; change (2 ^ 32) with 4294967296; lia. }
    destruct G as (len & -> & L1). cbn [bind].
    assert (B1 : f * len <= f * two32) by (apply N.mul_le_mono_l; lia). assert (B2 : f * 1 <= f * len) by (apply N.mul_le_mono_l; lia).
    assert (B3 : a + f * len + sumFst freqs * two32 < two64) by lia.
    destruct (IH ((a + f * len) mod two64)) as (t & E1 & E2); [exact X2|rewrite N.mod_small by lia; exact B3|].
    exists t. split; [exact E1|]. rewrite N.mod_small in E2 by lia. unfold sumFst. cbn [fold_right fst]. fold (sumFst freqs). lia.
Qed.

Lemma plain_total : forall w freqs a, w <= 15 -> Forall (fun p => 1 <= snd p < 2 ^ 32) freqs -> exists t, plainBits w freqs a = Ok t.
Proof.
  intros w freqs. induction freqs as [|[f x] r IH]; intros a Hw HX; cbn [plainBits]; [eauto|]. inversion_clear HX as [|? ? X1 X2].
  destruct (fixed_form x w X1 Hw) as (k & v & _ & EL & _). rewrite EL. cbn [bind]. apply IH; assumption.
Qed.

(** All run lengths are equally frequent, there are at least three and none gets a code in the first loop. *)
Definition stuck (fs : list (N * N)) (w : N) : Prop :=
  (3 <= length fs)%nat /\ (forall p q, In p fs -> In q fs -> fst p = fst q) /\ forall p, In p fs -> taken w 3 p = false.
Lemma stuck_dec : forall fs w, {stuck fs w} + {~ stuck fs w}.
Proof.
  intros fs w. destruct (le_dec 3 (length fs)) as [L|L]; [|right; intros (H & _); contradiction].
  destruct (forallb (fun p => negb (taken w 3 p)) fs) eqn:T.
  - destruct (forallb (fun p => forallb (fun q => fst p =? fst q) fs) fs) eqn:E.
    + left. split; [exact L|]. rewrite forallb_forall in E, T. split; [|intros p Hp; specialize (T p Hp); destruct (taken w 3 p); [discriminate|reflexivity]].
      intros p q Hp Hq. specialize (E p Hp). rewrite forallb_forall in E. apply N.eqb_eq. auto.
    + right. intros (_ & H & _). apply not_true_iff_false in E. apply E. rewrite forallb_forall. intros p Hp. rewrite forallb_forall. intros q Hq. apply N.eqb_eq. auto.
  - right. intros (_ & _ & H). apply not_true_iff_false in T. apply T. rewrite forallb_forall. intros p Hp. rewrite H by exact Hp. reflexivity.
Qed.

Section List.
Variable fs : list (N * N).
Hypothesis HN : NoDup (map snd fs).
Hypothesis HF : Forall (fun p => 0 < fst p) fs.
Hypothesis HX : Forall (fun p => 1 <= snd p < 2 ^ 32) fs.
Hypothesis HS : sumFst fs < 2 ^ 31.
Hypothesis HE : fs <> [].

Lemma HSD : 2 * sumFst fs < two64.
Proof. unfold two64. change (2 ^ 31) with 2147483648 in HS. lia. Qed.

Lemma sum_pos : 0 < sumFst fs.
Proof. destruct fs as [|p r]; [congruence|]. inversion_clear HF. unfold sumFst. cbn [fold_right]. lia. Qed.

(** The last part: a list of at least one chosen integer and 0. *)
Lemma tail_total : forall w depth l cl mf removed, w <= 15 -> incl cl fs -> NoDup cl -> (1 <= length cl)%nat -> mf <= sumFst fs -> length removed = length fs -> marked fs removed cl ->
  Permutation l (cl ++ [(mf, 0)]) ->
  exists t L, (let! codeLengths := codeLengthsInOrder l in
    let codeLengths := sortPairs codeLengths in
    let! j := findFixed (length codeLengths - 1) codeLengths in
    let! (j, codeLengths) := sinkFixed j depth codeLengths in
    let! p := get codeLengths j in
    let! total := semiBits w (snd p) codeLengths fs removed 0 in
    Ok (total, codeLengths)) = Ok (t, L) /\ 0 < t.
Proof.
  intros w depth l cl mf removed Hw C1 CN C2 C3 HL HM PL.
  assert (LL : length l = S (length cl)) by (rewrite (Permutation_length PL), app_length; cbn; lia).
  pose proof (sumFst_incl _ _ CN C1) as SI.
  assert (SL : sumFst l < two64).
  { unfold sumFst. rewrite (sum_perm _ _ PL). fold (sumFst (cl ++ [(mf, 0)])). rewrite sumFst_app. unfold sumFst at 2. cbn [fold_right fst]. change (2 ^ 31) with 2147483648 in HS. unfold two64. lia. }
  destruct (inOrder_spec l ltac:(lia) SL) as (dl & D1 & D2 & _ & _ & D5 & D6). rewrite D2. cbn [bind]. cbv zeta.
  set (L0 := sortPairs (combine (map N.of_nat dl) (map snd l))).
  assert (SYM : Permutation (map snd L0) (map snd l)).
  { unfold L0. rewrite sortPairs_perm, map_snd_combine by (rewrite !map_length; exact D1). reflexivity. }
  assert (LEN : length L0 = length l) by (rewrite <- (map_length snd L0), (Permutation_length SYM); apply map_length).
  assert (LC : N.of_nat (length cl) <= sumFst fs).
  { clear - C1 CN SI HF. enough (N.of_nat (length cl) <= sumFst cl) by lia. clear SI CN.
    induction cl as [|p cl IH]; [cbn; lia|]. unfold sumFst. cbn [fold_right length]. fold (sumFst cl).
    rewrite Forall_forall in HF. specialize (HF p (C1 p (or_introl eq_refl))). specialize (IH (fun q Hq => C1 q (or_intror Hq))). lia. }
  assert (DEP : Forall (fun d => 1 <= d < two32) (map fst L0)).
  { apply Forall_forall. intros d Hd. apply in_map_iff in Hd. destruct Hd as ([a b] & <- & Hd). unfold L0 in Hd. apply (Permutation_in _ (sortPairs_perm _)) in Hd. apply in_combine_l in Hd.
    apply in_map_iff in Hd. destruct Hd as (n & <- & Hn). rewrite Forall_forall in D5, D6. specialize (D5 n Hn). specialize (D6 n Hn). cbn [fst].
    change (2 ^ 31) with 2147483648 in HS. unfold two32. lia. }
  assert (Z : In 0 (map snd L0)).
  { eapply Permutation_in; [symmetry; exact SYM|]. eapply Permutation_in; [apply Permutation_map; symmetry; exact PL|]. rewrite map_app. apply in_app_iff. right. left. reflexivity. }
  apply in_map_iff in Z. destruct Z as (p0 & Z1 & Z2). destruct (In_nth_error _ _ Z2) as (k0 & Z3).
  destruct (findFixed_total (length L0 - 1) L0) as (j & p & F1 & F2 & F3).
  { exists k0, p0. pose proof (nth_error_bound _ _ _ Z3). split; [lia|auto]. } { lia. }
  rewrite F1. cbn [bind]. destruct (sinkFixed_total j depth L0 p F2 F3) as (j' & L' & q & S1 & S2 & S3 & S4 & S5).
  rewrite S1. cbn [bind]. rewrite (get_ok _ _ _ S2). cbn [bind]. rewrite S3.
  destruct (semi_total w L' fs removed 0 Hw HL HX) as (t & T1 & T2).
  { rewrite S4. exact DEP. }
  { assert (MS : forall k, nth_error removed k = Some true -> exists p, nth_error fs k = Some p /\ In (snd p) (map snd L')).
    { intros k Hk. destruct (HM k Hk) as (c & K1 & K2). exists c. split; [exact K1|]. apply S5. eapply Permutation_in; [symmetry; exact SYM|].
      eapply Permutation_in; [apply Permutation_map; symmetry; exact PL|]. rewrite map_app. apply in_app_iff. left. apply in_map. exact K2. }
    clear - HL MS. revert removed HL MS. induction fs as [|p r IH]; intros [|b removed] HL MS; cbn in HL; try lia; constructor.
    - intros ->. destruct (MS O eq_refl) as (p' & E & H). cbn in E. injection E as <-. exact H.
    - apply IH; [lia|]. intros k Hk. exact (MS (S k) Hk). }
  { change (2 ^ 31) with 2147483648 in HS. unfold two32, two64. lia. }
  rewrite T1. cbn [bind]. exists t, L'. split; [reflexivity|]. pose proof sum_pos. lia.
Qed.

Lemma smaller_bound : forall m f B, m <= B -> f <= B -> smaller m f <= B.
Proof. intros m f B H1 H2. unfold smaller. destruct ((m =? 0) || (f <? m)); assumption. Qed.

Lemma bits_total : forall w depth, w <= 15 -> depth <= 3 -> ~ (depth = 3 /\ stuck fs w) ->
  exists b L, bitsForIntegers worth w depth fs total = Ok (b, L) /\ (1 <= depth <= N.of_nat (length fs) -> 0 < b).
Proof.
  intros w depth Hw Hd NS. unfold bitsForIntegers. destruct (N.ltb_spec (N.of_nat (length fs)) depth) as [B|B]; [exists 0, []; split; [reflexivity|lia]|].
  destruct (N.eqb_spec depth 0) as [->|Dp].
  { destruct (plain_total w fs 0 Hw HX) as (t & ->). cbn [bind]. exists t, []. split; [reflexivity|lia]. }
  assert (HN' : NoDup fs) by (eapply NoDup_map_inv; exact HN).
  destruct (guess_total w depth fs [] (repeat false (length fs)) [] [] 0 Hw HX) as (removed & nr & mf & G1 & G2 & G3 & G4).
  { apply repeat_length. }
  { intros k E. exfalso. apply nth_error_In, repeat_spec in E. discriminate. }
  cbn [length app] in G1, G2, G3, G4. rewrite G1. cbn [bind]. set (cl := filter (taken w depth) fs) in *.
  pose proof (guess_spec worth w depth total fs [] _ _ HN' HF G1) as GS. cbn [app] in GS.
  destruct GS as (C1 & C2 & C3 & C4 & C5). { split; [constructor|]. split; [intros x []|]. split; [constructor|]. split; [constructor|]. left. auto. }
  assert (MF : forall cl' mf', least (sumFst fs) cl' mf' -> mf' <= sumFst fs) by (intros cl' mf' [[_ ->]|[H _]]; lia).
  rewrite repeat_length in G2.
  destruct (N.ltb_spec (N.of_nat (length cl)) depth) as [FC|FC].
  - destruct (force_total (N.to_nat depth) fs 0 (N.to_nat depth) nr removed cl mf G2 G3) as (removed' & cl' & mf' & F1 & F2 & F3).
    { eapply Forall_impl; [|exact C4]. intros e (x & E & _). eapply nth_error_bound. exact E. }
    { lia. }
    { (* enough frequencies *)
      assert (EX : exists p, In p fs /\ taken w depth p = false).
      { destruct (forallb (taken w depth) fs) eqn:FA.
        - exfalso. assert (cl = fs); [|rewrite H in FC; lia]. unfold cl. clear - FA. induction fs as [|p r IH]; [reflexivity|]. cbn [forallb filter] in *. apply andb_prop in FA. destruct FA as [-> FA]. f_equal. auto.
        - clear - FA. induction fs as [|p r IH]; [discriminate|]. cbn [forallb] in FA. destruct (taken w depth p) eqn:E; [|exists p; split; [left; reflexivity|exact E]].
          destruct (IH FA) as (q & H1 & H2). exists q. split; [right; exact H1|exact H2]. }
      destruct EX as ([f x] & P1 & P2). assert (K1 : In f (map fst nr)) by (apply G4; right; eauto).
      destruct nr as [|[a va] [|[b vb] nr]]; [destruct K1| |cbn [length]; lia]. cbn [length].
      destruct (N.eq_dec depth 3) as [->|]; [|lia]. destruct cl as [|c cl0] eqn:EC; [|cbn [length]; lia].
      exfalso. apply NS. split; [reflexivity|]. split; [lia|].
      assert (TF : forall p, In p fs -> taken w 3 p = false).
      { intros p Hp. destruct (taken w 3 p) eqn:T; [|reflexivity]. exfalso. assert (In p []); [|assumption]. rewrite <- EC. unfold cl. apply filter_In. auto. }
      split; [|exact TF]. assert (AL : forall p, In p fs -> fst p = a).
      { intros [g y] Hp. assert (In g (map fst [(a, va)])) as K; [apply G4; right; exists y; auto|]. destruct K as [K|[]]. cbn in K |- *. congruence. }
      intros p q Hp Hq. rewrite (AL p Hp), (AL q Hq). reflexivity. }
    pose proof F1 as F1'. apply force_spec in F1'; auto; [|lia]. destruct F1' as (Q1 & Q2 & Q3 & _ & _ & Q6).
    rewrite F1. cbn [bind].
    destruct (tail_total w depth (sortPairs (cl' ++ [(mf', 0)])) cl' mf' removed' Hw Q2 Q1 ltac:(lia) (MF _ _ Q3) F2 F3 (sortPairs_perm _)) as (t & L & T1 & T2).
    exists t, L. split; [exact T1|]. intros _. exact T2.
  - cbn [bind]. destruct (tail_total w depth (cl ++ [(mf, 0)]) cl mf removed Hw C2 C1 ltac:(lia) (MF _ _ C5) G2 G3 (Permutation_refl _)) as (t & L & T1 & T2).
    exists t, L. split; [exact T1|]. intros _. exact T2.
Qed.

Lemma bits_stuck : forall w, w <= 15 -> stuck fs w -> bitsForIntegers worth w 3 fs total = UB.
Proof.
  intros w Hw (S1 & S2 & S3). unfold bitsForIntegers. replace (N.of_nat (length fs) <? 3) with false by lia. cbn [N.eqb].
  assert (HN' : NoDup fs) by (eapply NoDup_map_inv; exact HN).
  destruct (guess_total w 3 fs [] (repeat false (length fs)) [] [] 0 Hw HX) as (removed & nr & mf & G1 & G2 & G3 & G4).
  { apply repeat_length. }
  { intros k E. exfalso. apply nth_error_In, repeat_spec in E. discriminate. }
  cbn [length app] in G1, G2, G3, G4. rewrite G1. cbn [bind].
  assert (EC : filter (taken w 3) fs = []).
  { clear - S3. induction fs as [|p r IH]; [reflexivity|]. cbn [filter]. rewrite S3 by (left; reflexivity). apply IH. intros q Hq. apply S3. right. exact Hq. }
  rewrite EC in *. pose proof (guess_spec worth w 3 total fs [] _ _ HN' HF G1) as GS. cbn [app] in GS.
  destruct GS as (C1 & C2 & C3 & C4 & C5). { split; [constructor|]. split; [intros x []|]. split; [constructor|]. split; [constructor|]. left. auto. }
  cbn [length]. change (N.of_nat 0 <? 3) with true. cbv iota.
  assert (EF : force (N.to_nat 3) 0 (N.to_nat 3) fs nr removed [] mf = UB).
  { change (N.to_nat 3) with 3%nat. cbn [force length Nat.add Nat.ltb Nat.leb]. destruct nr as [|[a va] nr]; [reflexivity|].
    inversion_clear C4 as [|? ? (x & X1 & _) _]. cbn [fst snd] in X1. rewrite (get_ok _ _ _ X1). cbn [bind app length Nat.add Nat.leb].
    destruct nr as [|[b vb] nr]; [reflexivity|]. exfalso.
    assert (KA : exists y, In (a, y) fs). { assert (In a (map fst ((a, va) :: (b, vb) :: nr))) as K by (left; reflexivity). apply G4 in K. destruct K as [[]|(y & K & _)]. eauto. }
    assert (KB : exists y, In (b, y) fs). { assert (In b (map fst ((a, va) :: (b, vb) :: nr))) as K by (right; left; reflexivity). apply G4 in K. destruct K as [[]|(y & K & _)]. eauto. }
    destruct KA as (ya & KA), KB as (yb & KB). pose proof (S2 _ _ KA KB) as E. cbn [fst] in E. inversion_clear C3 as [|? ? _ C]. inversion_clear C as [|? ? C' _]. cbn [fst] in C'. lia. }
  rewrite EF. reflexivity.
Qed.

Lemma plainRound_total : forall ws lb bw, Forall (fun w => w <= 15) ws -> exists r, plainRound worth ws fs total lb bw = Ok r.
Proof.
  induction ws as [|w ws IH]; intros lb bw H; cbn [plainRound]; [eauto|]. inversion_clear H as [|? ? H1 H2].
  destruct (bits_total w 0 H1 ltac:(lia)) as (b & L & E & _); [intros [C _]; discriminate|]. rewrite E. cbn [bind]. apply IH. exact H2.
Qed.

Lemma depthRound_total : forall w st, w <= 15 -> ~ stuck fs w -> exists r, depthRound worth w [1; 2; 3] fs total st = Ok r.
Proof.
  intros w st Hw NS. assert (G : forall ds st, Forall (fun d => d <= 3) ds -> exists r, depthRound worth w ds fs total st = Ok r).
  { clear st. induction ds as [|d ds IH]; intros st H; cbn [depthRound]; [eauto|]. inversion_clear H as [|? ? H1 H2].
    destruct (bits_total w d Hw H1) as (b & L & E & _); [intros [_ C]; contradiction|]. rewrite E. cbn [bind]. destruct (b =? 0); [eauto|]. destruct st as [[lb bw] cl]. apply IH. exact H2. }
  apply G. repeat constructor; lia.
Qed.
Lemma depthRound_stuck : forall w st, w <= 15 -> stuck fs w -> depthRound worth w [1; 2; 3] fs total st = UB.
Proof.
  intros w st Hw NS. assert (S1 := proj1 NS). cbn [depthRound].
  destruct (bits_total w 1 Hw ltac:(lia)) as (b & L & E & P); [intros [C _]; discriminate|]. rewrite E. cbn [bind]. specialize (P ltac:(lia)). replace (b =? 0) with false by lia.
  destruct st as [[lb bw] cl].
  destruct (bits_total w 2 Hw ltac:(lia)) as (b2 & L2 & E2 & P2); [intros [C _]; discriminate|]. rewrite E2. cbn [bind]. specialize (P2 ltac:(lia)). replace (b2 =? 0) with false by lia.
  destruct (if b <? lb then _ else _) as [[lb' bw'] cl']. rewrite bits_stuck by assumption. reflexivity.
Qed.

Lemma semiRound_total : forall ws st, Forall (fun w => w <= 15) ws -> Forall (fun w => ~ stuck fs w) ws -> exists r, semiRound worth ws fs total st = Ok r.
Proof.
  induction ws as [|w ws IH]; intros st H N; cbn [semiRound]; [eauto|]. inversion_clear H as [|? ? H1 H2]. inversion_clear N as [|? ? N1 N2].
  destruct (depthRound_total w st H1 N1) as (r & ->). cbn [bind]. apply IH; assumption.
Qed.
Lemma semiRound_stuck : forall ws st, Forall (fun w => w <= 15) ws -> Exists (stuck fs) ws -> semiRound worth ws fs total st = UB.
Proof.
  induction ws as [|w ws IH]; intros st H N; cbn [semiRound]; [inversion N|]. inversion_clear H as [|? ? H1 H2].
  destruct (stuck_dec fs w) as [S|S].
  - rewrite depthRound_stuck by assumption. reflexivity.
  - destruct (depthRound_total w st H1 S) as (r & ->). cbn [bind]. apply IH; [exact H2|]. inversion_clear N; [contradiction|assumption].
Qed.
End List.

Lemma stuck_perm : forall a b w, Permutation a b -> stuck a w -> stuck b w.
Proof.
  intros a b w P (S1 & S2 & S3). assert (Q : Permutation b a) by (symmetry; exact P). split; [rewrite (Permutation_length Q); exact S1|].
  split; [intros p q Hp Hq; apply S2; apply (Permutation_in _ Q); assumption|]. intros p Hp. apply S3, (Permutation_in _ Q), Hp.
Qed.

Lemma findParameters_total : forall freqs, NoDup (map snd freqs) -> Forall (fun p => 0 < fst p) freqs -> Forall (fun p => 1 <= snd p < 2 ^ 32) freqs ->
  sumFst freqs < 2 ^ 31 -> freqs <> [] ->
  ((forall w, w <= 15 -> ~ stuck freqs w) -> exists r, findParameters worth freqs total = Ok r) /\
  ((exists w, w <= 15 /\ stuck freqs w) -> findParameters worth freqs total = UB).
Proof.
  intros freqs HN HF HX HS HE. pose proof (sortPairs_perm freqs) as P.
  assert (HN' : NoDup (map snd (sortPairs freqs))) by (eapply Permutation_NoDup; [apply Permutation_map; symmetry; exact P|exact HN]).
  assert (HF' : Forall (fun p => 0 < fst p) (sortPairs freqs)) by (eapply Permutation_Forall; [symmetry; exact P|exact HF]).
  assert (HX' : Forall (fun p => 1 <= snd p < 2 ^ 32) (sortPairs freqs)) by (eapply Permutation_Forall; [symmetry; exact P|exact HX]).
  assert (HS' : sumFst (sortPairs freqs) < 2 ^ 31) by (unfold sumFst; rewrite (sum_perm _ _ P); exact HS).
  assert (HE' : sortPairs freqs <> []) by (intros C; rewrite C in P; apply Permutation_nil in P; congruence).
  assert (WS : forall k n, (k + N.of_nat n <= 16) -> Forall (fun w => w <= 15) (fromTo k n)).
  { intros k n H. apply Forall_forall. intros w Hw. apply (fromTo_in worth) in Hw. lia. }
  unfold findParameters. destruct freqs as [|p0 r] eqn:EF; [congruence|]. rewrite <- EF in *. cbv zeta. clear p0 r EF.
  destruct (bits_total (sortPairs freqs) HN' HF' HX' HS' HE' 0 0 ltac:(lia) ltac:(lia)) as (b & L & E1 & _); [intros [C _]; discriminate|]. rewrite E1. cbn [bind].
  destruct (plainRound_total (sortPairs freqs) HN' HF' HX' HS' HE' (fromTo 1 15) b 0) as (bw & E2); [apply WS; lia|]. rewrite E2. cbn [bind]. split.
  - intros NS. destruct (semiRound_total (sortPairs freqs) HN' HF' HX' HS' HE' (fromTo 0 16) (b, bw, [])) as ([[lb' bw'] cl] & E3); [apply WS; lia| |].
    + apply Forall_forall. intros w Hw C. apply (fromTo_in worth) in Hw. apply (NS w ltac:(lia)). exact (stuck_perm _ _ _ P C).
    + rewrite E3. cbn [bind]. eauto.
  - intros (w & Hw & SK). rewrite (semiRound_stuck (sortPairs freqs) HN' HF' HX' HS' HE'); [reflexivity|apply WS; lia|].
    apply Exists_exists. exists w. split; [|apply (stuck_perm freqs); [symmetry; exact P|exact SK]].
    apply nth_error_In with (n := N.to_nat w). rewrite ProofHuffCoder3.fromTo_nth by lia. f_equal. lia.
Qed.
End Total.

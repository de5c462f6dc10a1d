(** Grammar::expandAlphabet: new special symbols and pairs, and the rewriting of the rules. *)
From Coq Require Import List NArith ZArith Lia Arith Bool Permutation.
From Coq Require Import ZifyBool ZifyNat ZifyN.
From Verif Require Import Base Arrays TArray ModelUtils ModelStreams ModelHeaders ProofUtils1 ModelGrammar SpecGrammar ProofGrammar3 ModelPairs
  ProofPairs1 ProofPairs2 ProofPairs3 ProofPairs4.
Import ListNotations.
Open Scope N_scope.

Lemma hi16_pair : forall a b, b < 256 -> hi16 (pair16 a b) = a.
Proof. intros a b Hb. unfold hi16. rewrite pair16_eq by exact Hb. rewrite N.shiftr_div_pow2. change (2 ^ 8) with 256. rewrite N.div_add_l by lia. rewrite N.div_small by exact Hb. lia. Qed.

(** ** Weights: frequencies modulo 2^64 *)
Definition cz (l : list N) (c : N) : Z := Z.of_nat (count_occ N.eq_dec l c).
Lemma cz_app : forall l m c, cz (l ++ m) c = (cz l c + cz m c)%Z.
Proof. intros. unfold cz. rewrite count_occ_app. lia. Qed.
Lemma cz_cons : forall x l c, cz (x :: l) c = ((if N.eqb c x then 1 else 0) + cz l c)%Z.
Proof. intros. unfold cz. cbn [count_occ]. destruct (N.eq_dec x c), (N.eqb_spec c x); try lia; congruence. Qed.
Lemma cz_nil : forall c, cz [] c = 0%Z.
Proof. reflexivity. Qed.

Definition weigh (freqs : list N) (w : N -> Z) : Prop :=
  length freqs = 256%nat /\ forall c, c < 256 -> Z.of_N (nth (N.to_nat c) freqs 0) = (w c mod 2 ^ 64)%Z.

Lemma weigh_ext : forall f w w', weigh f w -> (forall c, c < 256 -> w c = w' c) -> weigh f w'.
Proof. intros f w w' (L & H) E. split; [exact L|]. intros c Hc. rewrite H, E by exact Hc. reflexivity. Qed.

Lemma nth_upd : forall (l : list N) i v j, (i < length l)%nat -> nth j (upd l i v) 0 = if (j =? i)%nat then v else nth j l 0.
Proof.
  intros l i v j H. pose proof (nth_error_upd l i v j H) as E. destruct (nth_error (upd l i v) j) as [x|] eqn:EX.
  - rewrite (nth_error_nth _ _ 0 EX). destruct (Nat.eqb_spec j i); [congruence|]. symmetry in E. rewrite (nth_error_nth _ _ 0 E). reflexivity.
  - destruct (Nat.eqb_spec j i); [discriminate|]. symmetry in E. apply nth_error_None in E, EX. rewrite !nth_overflow by assumption. reflexivity.
Qed.

Lemma incr_weigh : forall f w x, weigh f w -> x < 256 ->
  exists f', incr f x = Ok f' /\ weigh f' (fun c => w c + if N.eqb c x then 1 else 0)%Z.
Proof.
  intros f w x (L & H) Hx. unfold incr. destruct (nth_error_lt f (N.to_nat x) ltac:(lia)) as (v & E). rewrite (get_ok _ _ _ E). cbn [bind].
  rewrite set_ok by lia. eexists. split; [reflexivity|]. split; [rewrite upd_length; exact L|]. intros c Hc. rewrite nth_upd by lia.
  destruct (N.eqb_spec c x) as [->|NE].
  - rewrite Nat.eqb_refl. specialize (H x Hx). rewrite (nth_error_nth _ _ 0 E) in H.
    unfold two64. rewrite N2Z.inj_mod, N2Z.inj_add, H. change (Z.of_N 18446744073709551616) with (2 ^ 64)%Z.
    rewrite Zplus_mod_idemp_l. reflexivity.
  - destruct (Nat.eqb_spec (N.to_nat c) (N.to_nat x)); [lia|]. rewrite H by exact Hc. f_equal. lia.
Qed.
Lemma decr_weigh : forall f w x, weigh f w -> x < 256 ->
  exists f', decr f x = Ok f' /\ weigh f' (fun c => w c - if N.eqb c x then 1 else 0)%Z.
Proof.
  intros f w x (L & H) Hx. unfold decr. destruct (nth_error_lt f (N.to_nat x) ltac:(lia)) as (v & E). rewrite (get_ok _ _ _ E). cbn [bind].
  rewrite set_ok by lia. eexists. split; [reflexivity|]. split; [rewrite upd_length; exact L|]. intros c Hc. rewrite nth_upd by lia.
  destruct (N.eqb_spec c x) as [->|NE].
  - rewrite Nat.eqb_refl. specialize (H x Hx). rewrite (nth_error_nth _ _ 0 E) in H.
    replace (v + two64 - 1) with (v + (two64 - 1)) by (unfold two64; lia).
    assert (EQ : Z.of_N (two64 - 1) = (-1 + 1 * 2 ^ 64)%Z) by reflexivity.
    assert (EQ2 : Z.of_N two64 = (2 ^ 64)%Z) by reflexivity.
    rewrite N2Z.inj_mod, N2Z.inj_add, H, EQ, EQ2.
    rewrite Z.add_assoc, Z_mod_plus_full. rewrite Zplus_mod_idemp_l. reflexivity.
  - destruct (Nat.eqb_spec (N.to_nat c) (N.to_nat x)); [lia|]. rewrite H by exact Hc. f_equal. lia.
Qed.

(** ** Translation of symbols *)
Definition bytesOf (ks : list sym) : list N := concat (map symBytes ks).
Lemma bytesOf_app : forall a b, bytesOf (a ++ b) = bytesOf a ++ bytesOf b.
Proof. intros. unfold bytesOf. rewrite map_app, concat_app. reflexivity. Qed.

Definition escOf (isNew : list bool) (repl : list N) (c : N) : option (N * N) :=
  if nth (N.to_nat c) isNew false then Some (hi16 (nth (N.to_nat c) repl 0), lo16 (nth (N.to_nat c) repl 0)) else None.
Definition tr (esc : N -> option (N * N)) (k : sym) : sym :=
  match k with
  | One c => match esc c with Some (x, y) => Two x y | None => One c end
  | Two a b => Two a b
  end.

Definition okSym (esc : N -> option (N * N)) (k : sym) : Prop :=
  match k with One c => c < 256 | Two a b => a < 256 /\ b < 256 /\ esc a = None /\ esc b = None end.

Section Expand.
Variables (isNew : list bool) (repl : list N).
Hypothesis L1 : length isNew = 256%nat.
Hypothesis L2 : length repl = 256%nat.
Let esc := escOf isNew repl.
Hypothesis HE : forall c x y, c < 256 -> esc c = Some (x, y) -> x < 256 /\ y < 256 /\ nth (N.to_nat c) repl 0 = pair16 x y.

Lemma expandSide_plain : forall c r freqs, c < 256 -> esc c = None ->
  expandSide isNew repl (c :: r) freqs = (let! (l, freqs) := expandSide isNew repl r freqs in Ok (c :: l, freqs)).
Proof.
  intros c r freqs Hc E. cbn [expandSide]. unfold esc, escOf in E.
  destruct (nth_error_lt isNew (N.to_nat c) ltac:(lia)) as (b & EB). rewrite (get_ok _ _ _ EB). cbn [bind].
  rewrite (nth_error_nth _ _ false EB) in E. destruct b; [discriminate|reflexivity].
Qed.

Lemma expandSide_ok : forall ks freqs w, Forall (okSym esc) ks -> weigh freqs w ->
  exists freqs', expandSide isNew repl (bytesOf ks) freqs = Ok (bytesOf (map (tr esc) ks), freqs') /\
    weigh freqs' (fun c => w c + cz (bytesOf (map (tr esc) ks)) c - cz (bytesOf ks) c)%Z.
Proof.
  induction ks as [|k ks IH]; intros freqs w HK HW.
  - exists freqs. split; [reflexivity|]. eapply weigh_ext; [exact HW|]. intros c _. cbn [map bytesOf concat]. rewrite cz_nil. lia.
  - inversion_clear HK as [|? ? K1 K2]. unfold bytesOf in *. cbn [map concat]. destruct k as [c|a b].
    + cbn [symBytes okSym app] in *. cbn [tr]. destruct (esc c) as [[x y]|] eqn:E.
      * destruct (HE c x y K1 E) as (Hx & Hy & ER). cbn [expandSide].
        pose proof E as E'. unfold esc, escOf in E'. destruct (nth_error_lt isNew (N.to_nat c) ltac:(lia)) as (b & EB). rewrite (get_ok _ _ _ EB). cbn [bind].
        rewrite (nth_error_nth _ _ false EB) in E'. destruct b; [|discriminate]. clear E'.
        destruct (decr_weigh freqs w c HW K1) as (f1 & F1 & W1). rewrite F1. cbn [bind].
        destruct (nth_error_lt repl (N.to_nat c) ltac:(lia)) as (v & EV). rewrite (get_ok _ _ _ EV). cbn [bind].
        rewrite (nth_error_nth _ _ 0 EV) in ER. subst v. rewrite hi16_pair, lo16_pair by exact Hy.
        destruct (incr_weigh f1 _ x W1 Hx) as (f2 & F2 & W2). rewrite F2. cbn [bind].
        destruct (incr_weigh f2 _ y W2 Hy) as (f3 & F3 & W3). rewrite F3. cbn [bind].
        destruct (IH f3 _ K2 W3) as (f4 & F4 & W4). rewrite F4. cbn [bind symBytes app]. exists f4. split; [reflexivity|].
        eapply weigh_ext; [exact W4|]. intros d Hd. cbn beta. rewrite !cz_cons. lia.
      * rewrite expandSide_plain by assumption. destruct (IH freqs w K2 HW) as (f' & F' & W'). rewrite F'. cbn [bind symBytes app].
        exists f'. split; [reflexivity|]. eapply weigh_ext; [exact W'|]. intros d Hd. cbn beta. rewrite !cz_cons. lia.
    + destruct K1 as (Ha & Hb & Ea & Eb). cbn [tr symBytes app].
      rewrite expandSide_plain, expandSide_plain by assumption. destruct (IH freqs w K2 HW) as (f' & F' & W'). rewrite F'. cbn [bind].
      exists f'. split; [reflexivity|]. eapply weigh_ext; [exact W'|]. intros d Hd. cbn beta. rewrite !cz_cons. lia.
Qed.

(** Rules at the level of symbols. *)
Definition flat (rules : list (sym * list sym)) : list (sym * list N) := map (fun r => (fst r, bytesOf (snd r))) rules.
Fixpoint trRules (todo : nat) (rules : list (sym * list sym)) : list (sym * list sym) :=
  match rules with
  | [] => []
  | (k, ks) :: r => ((match todo with O => k | _ => tr esc k end), map (tr esc) ks) :: trRules (pred todo) r
  end.
Definition ruleBytes (rules : list (sym * list sym)) : list N :=
  concat (map (fun r => symBytes (fst r) ++ bytesOf (snd r)) rules).

Lemma symVariable_two : forall a b, b < 256 -> symVariable (Two a b) = pair16 a b.
Proof. intros a b Hb. cbn [symVariable]. rewrite pair16_eq by exact Hb. reflexivity. Qed.

Lemma slice_mid : forall {A} (l m r : list A), slice (l ++ m ++ r) (length l) (length l + length m) = m.
Proof.
  intros A l m r. unfold slice. rewrite skipn_app, skipn_all, Nat.sub_diag. cbn [skipn app].
  replace (length l + length m - length l)%nat with (length m) by lia. rewrite firstn_app, Nat.sub_diag, firstn_all, firstn_O. apply app_nil_r.
Qed.

Lemma expandRules_ok : forall rules todo pre freqs acc w,
  Forall (fun r => okSym esc (fst r) /\ Forall (okSym esc) (snd r)) rules -> weigh freqs w ->
  exists freqs', expandRules isNew repl (pre ++ concat (map snd (flat rules))) todo (layout (length pre) (flat rules)) freqs acc =
     Ok (layout (length acc) (flat (trRules todo rules)), freqs', acc ++ concat (map snd (flat (trRules todo rules)))) /\
    weigh freqs' (fun c => w c + cz (ruleBytes (trRules todo rules)) c - cz (ruleBytes rules) c)%Z.
Proof.
  induction rules as [|[k ks] rules IH]; intros todo pre freqs acc w HR HW.
  - exists freqs. cbn [flat map layout expandRules trRules concat]. rewrite app_nil_r. split; [reflexivity|].
    eapply weigh_ext; [exact HW|]. intros c _. unfold ruleBytes. cbn [map concat]. rewrite cz_nil. lia.
  - inversion_clear HR as [|? ? K0 K3]. destruct K0 as (K1 & K2). cbn [fst snd] in K1, K2. cbn [flat map layout expandRules trRules fst snd concat r_large r_variable r_begin r_end].
    fold (flat rules).
    assert (LHS : exists f1, (match todo with
        | O => Ok (mkRule (symVariable k) (length pre) (length pre + length (bytesOf ks)) (isTwo k), freqs)
        | S _ => if isTwo k then Ok (mkRule (symVariable k) (length pre) (length pre + length (bytesOf ks)) (isTwo k), freqs)
          else let! b := get isNew (N.to_nat (symVariable k)) in
               if b : bool then
                 let! freqs := decr freqs (symVariable k) in
                 let! nPair := get repl (N.to_nat (symVariable k)) in
                 let! freqs := incr freqs (hi16 nPair) in
                 let! freqs := incr freqs (lo16 nPair) in
                 Ok (mkRule nPair (length pre) (length pre + length (bytesOf ks)) true, freqs)
               else Ok (mkRule (symVariable k) (length pre) (length pre + length (bytesOf ks)) (isTwo k), freqs)
        end) = Ok (mkRule (symVariable (match todo with O => k | _ => tr esc k end)) (length pre) (length pre + length (bytesOf ks))
                    (isTwo (match todo with O => k | _ => tr esc k end)), f1) /\
        weigh f1 (fun c => w c + cz (symBytes (match todo with O => k | _ => tr esc k end)) c - cz (symBytes k) c)%Z).
    { destruct todo as [|todo]; [exists freqs; split; [reflexivity|]; eapply weigh_ext; [exact HW|]; intros; lia|].
      destruct k as [c|a b]; cbn [isTwo symVariable okSym] in *.
      2:{ exists freqs. split; [reflexivity|]. eapply weigh_ext; [exact HW|]. intros; cbn [tr]; lia. }
      destruct (nth_error_lt isNew (N.to_nat c) ltac:(lia)) as (b & EB). rewrite (get_ok _ _ _ EB). cbn [bind].
      cbn [tr]. destruct (esc c) as [[x y]|] eqn:E.
      - destruct (HE c x y K1 E) as (Hx & Hy & ER). unfold esc, escOf in E. rewrite (nth_error_nth _ _ false EB) in E. destruct b; [|discriminate]. clear E.
        destruct (decr_weigh freqs w c HW K1) as (f1 & F1 & W1). rewrite F1. cbn [bind].
        destruct (nth_error_lt repl (N.to_nat c) ltac:(lia)) as (v & EV). rewrite (get_ok _ _ _ EV). cbn [bind].
        rewrite (nth_error_nth _ _ 0 EV) in ER. subst v. rewrite hi16_pair, lo16_pair by exact Hy.
        destruct (incr_weigh f1 _ x W1 Hx) as (f2 & F2 & W2). rewrite F2. cbn [bind].
        destruct (incr_weigh f2 _ y W2 Hy) as (f3 & F3 & W3). rewrite F3. cbn [bind isTwo]. rewrite symVariable_two by exact Hy. exists f3. split; [reflexivity|].
        eapply weigh_ext; [exact W3|]. intros d Hd. cbn beta. cbn [symBytes]. rewrite !cz_cons, !cz_nil. lia.
      - unfold esc, escOf in E. rewrite (nth_error_nth _ _ false EB) in E. destruct b; [discriminate|].
        exists freqs. split; [reflexivity|]. eapply weigh_ext; [exact HW|]. intros; cbn [symBytes]. lia. }
    destruct LHS as (f1 & F1 & W1). rewrite F1. cbn [bind r_variable r_large]. clear F1.
    set (k' := match todo with O => k | _ => tr esc k end) in *. clearbody k'.
    assert (RG : range (pre ++ bytesOf ks ++ concat (map snd (flat rules))) (length pre) (length pre + length (bytesOf ks)) = Ok (bytesOf ks)).
    { unfold range. rewrite slice_mid. rewrite !app_length.
      destruct (Nat.leb_spec (length pre + length (bytesOf ks)) (length pre + (length (bytesOf ks) + length (concat (map snd (flat rules)))))); [reflexivity|lia]. }
    rewrite RG. cbn [bind]. destruct (expandSide_ok ks f1 _ K2 W1) as (f2 & F2 & W2). rewrite F2. cbn [bind].
    specialize (IH (pred todo) (pre ++ bytesOf ks) f2 (acc ++ bytesOf (map (tr esc) ks)) _ K3 W2).
    destruct IH as (f3 & F3 & W3). rewrite <- !app_assoc in F3. rewrite !app_length in F3. rewrite F3. cbn [bind].
    exists f3. split; [reflexivity|].
    eapply weigh_ext; [exact W3|]. intros d Hd. cbn beta. unfold ruleBytes. cbn [map concat fst snd]. rewrite !cz_app. lia.
Qed.
End Expand.

(** ** The first loop *)
Definition flagged (l : list bool) (c : N) : bool := nth (N.to_nat c) l false.
Lemma flagged_upd : forall l i b c, (N.to_nat i < length l)%nat -> flagged (upd l (N.to_nat i) b) c = if c =? i then b else flagged l c.
Proof.
  intros l i b c H. unfold flagged. pose proof (nth_error_upd l (N.to_nat i) b (N.to_nat c) H) as E.
  destruct (N.eqb_spec c i) as [->|NE].
  - rewrite Nat.eqb_refl in E. apply (nth_error_nth _ _ false E).
  - destruct (Nat.eqb_spec (N.to_nat c) (N.to_nat i)); [lia|].
    destruct (nth_error l (N.to_nat c)) as [x|] eqn:EX.
    + rewrite (nth_error_nth _ _ false E), (nth_error_nth _ _ false EX). reflexivity.
    + apply nth_error_None in E, EX. rewrite !nth_overflow by assumption. reflexivity.
Qed.

Lemma set_inv : forall {A} (l : list A) i v l', set l i v = Ok l' -> (i < length l)%nat /\ l' = upd l i v.
Proof. intros A l i v l' H. unfold set in H. destruct (Nat.ltb_spec i (length l)); [injection H as <-; auto|discriminate]. Qed.

Lemma back_inv : forall {A} (l : list A) x, back l = Ok x -> exists l', l = l' ++ [x].
Proof.
  induction l as [|y l IH]; intros x H; cbn [back] in H; [discriminate|]. destruct l as [|z l].
  - injection H as ->. exists []. reflexivity.
  - destruct (IH x H) as (l' & E). exists (y :: l'). rewrite E. reflexivity.
Qed.

(** What holds when the freed symbols [doneF] and the new special symbols [doneN] have been processed. *)
Definition expanded (g0 : grammar) (doneF doneN : list N) (st : grammar * list bool * list N * list N) : Prop :=
  let '(g, isNew, repl, next) := st in
  let s := length (g_specials g) in let q := length (g_pairs g) in
  g_rules g = g_rules g0 /\ g_rhs g = g_rhs g0 /\ g_freqs g = g_freqs g0 /\ g_new g = g_new g0 /\
  g_specials g = g_specials g0 ++ doneN /\
  length (g_special g) = 256%nat /\ (forall c, flagged (g_special g) c = true <-> flagged (g_special g0) c = true \/ In c doneN) /\
  length (g_variable g) = 256%nat /\ (forall c, flagged (g_variable g) c = true <-> flagged (g_variable g0) c = true \/ In c doneF) /\
  length isNew = 256%nat /\ length repl = 256%nat /\
  (forall c, flagged isNew c = true <-> In c (doneF ++ doneN)) /\
  ((s = 0 /\ q = 0) \/ (0 < s /\ (s - 1) * (s - 1) + 1 <= q <= s * s))%nat /\
  (exists ext, g_pairs g = g_pairs g0 ++ ext /\ length ext = (length doneF + length doneN)%nat /\
     (forall c, In c (doneF ++ doneN) -> exists m fl, nth_error ext m = Some (fl, c)) /\
     (forall m fl c, nth_error ext m = Some (fl, c) -> exists i j x y,
        number i j = (length (g_pairs g0) + m)%nat /\ nth_error (g_specials g) i = Some x /\ nth_error (g_specials g) j = Some y /\
        nth (N.to_nat c) repl 0 = pair16 x y /\
        (i = j -> In c doneN /\ x = c /\ fl = false) /\
        (i <> j -> In c doneF /\ fl = flagged (g_variable g0) c))) /\
  length next = length doneF /\
  (forall i c, nth_error doneF i = Some c -> nth_error next i = Some (nth (N.to_nat c) repl 0)).

Lemma left_ok : forall g, (length (g_pairs g) <= length (g_specials g) * length (g_specials g))%nat -> (length (g_specials g) <= 256)%nat ->
  specialSymbolPairsLeft g = N.of_nat (length (g_specials g) * length (g_specials g) - length (g_pairs g)).
Proof.
  intros g Hq Hs. unfold specialSymbolPairsLeft. set (s := length (g_specials g)) in *. set (q := length (g_pairs g)) in *.
  assert ((s * s <= 256 * 256)%nat) by (apply Nat.mul_le_mono; assumption).
  rewrite (N.mod_small (N.of_nat q)) by (unfold two32; lia).
  replace (N.of_nat s * N.of_nat s + two32 - N.of_nat q) with (N.of_nat (s * s - q) + 1 * two32) by (unfold two32; lia).
  rewrite N.mod_add by discriminate. apply N.mod_small. unfold two32. lia.
Qed.

Lemma number_diag : forall i j k, number i j = (k * k)%nat <-> (i = k /\ j = k).
Proof.
  intros i j k. split; [|intros (-> & ->); unfold number; rewrite Nat.eqb_refl; reflexivity].
  intros H. assert (E : number k k = (k * k)%nat) by (unfold number; rewrite Nat.eqb_refl; reflexivity). rewrite <- E in H. apply number_inj in H. exact H.
Qed.

Lemma expandLoop_ok : forall g0 fuel freed news doneF doneN st st',
  expandLoop fuel freed news st = Ok st' -> expanded g0 doneF doneN st ->
  NoDup (doneF ++ freed ++ doneN ++ news) -> (forall c, In c (freed ++ news) -> c < 256) ->
  (length (g_specials g0) + length doneN + length news <= 256)%nat ->
  fits (length (g_specials (fst (fst (fst st))))) (length (g_pairs (fst (fst (fst st))))) (length news) (length freed) ->
  expanded g0 (doneF ++ freed) (doneN ++ news) st'.
Proof.
  intros g0. induction fuel as [|fuel IH]; intros freed news doneF doneN st st' H X ND HB HS HF; cbn [expandLoop] in H; [discriminate|].
  destruct freed as [|c freed].
  { (* all freed symbols are processed: no new special symbol is left over *)
    injection H as <-. destruct news as [|s0 news]; [rewrite !app_nil_r; exact X|]. exfalso.
    destruct st as [[[g isNew] repl] next]. cbn [fst] in HF. destruct X as (_ & _ & _ & _ & _ & _ & _ & _ & _ & _ & _ & _ & X & _).
    destruct HF as (_ & HF). cbn [length] in HF. specialize (HF ltac:(lia)). set (s := length (g_specials g)) in *. set (n := length news) in *.
    replace (s + S n - 1)%nat with (s + n)%nat in HF by lia. nia. }
  destruct st as [[[g isNew] repl] next]. cbn zeta in H.
  destruct X as (X1 & X2 & X3 & X4 & X5 & X6 & X7 & X8 & X9 & X10 & X11 & X12 & X13 & X14 & X15 & X16). cbn [fst] in HF.
  assert (LS : length (g_specials g) = (length (g_specials g0) + length doneN)%nat) by (rewrite X5; apply app_length).
  assert (QL : (length (g_pairs g) <= length (g_specials g) * length (g_specials g))%nat) by (destruct X13 as [(-> & ->)|X13]; lia).
  rewrite left_ok in H by lia.
  destruct X14 as (ext & E1 & E2 & E3 & E4).
  assert (LP : length (g_pairs g) = (length (g_pairs g0) + length ext)%nat) by (rewrite E1; apply app_length).
  destruct (N.eqb_spec (N.of_nat (length (g_specials g) * length (g_specials g) - length (g_pairs g))) 0) as [Z|NZ].
  - (* a new special symbol *)
    destruct news as [|s0 news]; [discriminate|].
    bd H. bd H. bd H. apply set_inv in E, E0, E5. destruct E as (B1 & ->). destruct E0 as (B2 & ->). destruct E5 as (B3 & ->).
    assert (NIN : ~ In s0 (doneF ++ doneN)).
    { intros I. apply in_app_iff in I.
      assert (P : Permutation (doneF ++ (c :: freed) ++ doneN ++ s0 :: news) (s0 :: (doneF ++ (c :: freed) ++ doneN ++ news))).
      { rewrite !app_assoc. symmetry. apply Permutation_middle. }
      apply (Permutation_NoDup P) in ND. apply NoDup_cons_iff in ND. destruct ND as (N1 & _). apply N1. rewrite !in_app_iff. tauto. }
    assert (A1 : (doneN ++ s0 :: news) = (doneN ++ [s0]) ++ news) by (rewrite <- app_assoc; reflexivity).
    apply (IH (c :: freed) news doneF (doneN ++ [s0])) in H.
    + rewrite <- A1 in H. exact H.
    + unfold expanded. cbn [g_specials g_pairs g_rules g_rhs g_freqs g_new g_special g_variable].
      split; [exact X1|]. split; [exact X2|]. split; [exact X3|]. split; [exact X4|]. split; [rewrite X5, app_assoc; reflexivity|].
      split; [rewrite upd_length; exact X6|]. split.
      { intros d. rewrite flagged_upd by exact B1. rewrite in_app_iff. cbn [In]. destruct (N.eqb_spec d s0) as [->|NE]; [tauto|]. rewrite X7. intuition congruence. }
      split; [exact X8|]. split; [exact X9|]. split; [rewrite upd_length; exact X10|]. split; [rewrite upd_length; exact X11|]. split.
      { intros d. rewrite flagged_upd by exact B2. rewrite app_assoc, in_app_iff. cbn [In]. destruct (N.eqb_spec d s0) as [->|NE]; [tauto|]. rewrite X12. intuition congruence. }
      rewrite !app_length. cbn [length]. split.
      { right. destruct X13 as [(U1 & U2)|X13]; [rewrite U1, U2; cbn; lia|].
        replace (length (g_specials g) + 1 - 1)%nat with (length (g_specials g)) by lia.
        split; [lia|]. split; [lia|]. nia. }
      split.
      { exists (ext ++ [(false, s0)]). split; [rewrite E1, app_assoc; reflexivity|]. split; [rewrite app_length; cbn [length]; lia|]. split.
        - intros d Hd. rewrite app_assoc in Hd. apply in_app_iff in Hd. destruct Hd as [Hd|[<-|[]]].
          + destruct (E3 d Hd) as (m & fl & Y). exists m, fl. rewrite nth_error_app1; [exact Y|]. eapply nth_error_bound; eauto.
          + exists (length ext), false. rewrite nth_error_app2, Nat.sub_diag by lia. reflexivity.
        - intros m fl d Y. destruct (Nat.lt_ge_cases m (length ext)) as [M|M].
          + rewrite nth_error_app1 in Y by exact M. destruct (E4 m fl d Y) as (i & j & x & y & N1 & N2 & N3 & N4 & N5 & N6).
            exists i, j, x, y. split; [exact N1|]. split; [rewrite nth_error_app1; [exact N2|eapply nth_error_bound; eauto]|].
            split; [rewrite nth_error_app1; [exact N3|eapply nth_error_bound; eauto]|]. split.
            { rewrite nth_upd by exact B3. destruct (Nat.eqb_spec (N.to_nat d) (N.to_nat s0)) as [Q|Q]; [|exact N4]. exfalso. apply NIN.
              assert (d = s0) by lia. subst d. destruct (Nat.eq_dec i j) as [IJ|IJ]; [destruct (N5 IJ) as (V & _)|destruct (N6 IJ) as (V & _)]; apply in_app_iff; auto. }
            split; [intros IJ; destruct (N5 IJ) as (V1 & V2 & V3); split; [apply in_app_iff; auto|auto]|exact N6].
          + rewrite nth_error_app2 in Y by exact M. destruct (m - length ext)%nat as [|m'] eqn:EM; [|destruct m'; discriminate].
            injection Y as <- <-. exists (length (g_specials g)), (length (g_specials g)), s0, s0.
            assert (NS : nth_error (g_specials g ++ [s0]) (length (g_specials g)) = Some s0) by (rewrite nth_error_app2, Nat.sub_diag by lia; reflexivity).
            split; [unfold number; rewrite Nat.eqb_refl; lia|]. split; [exact NS|]. split; [exact NS|].
            split; [rewrite nth_upd, Nat.eqb_refl by exact B3; reflexivity|]. split; [|congruence].
            intros _. split; [apply in_app_iff; right; left; reflexivity|]. split; reflexivity. }
      split; [exact X15|]. intros i d Y. rewrite nth_upd by exact B3. destruct (Nat.eqb_spec (N.to_nat d) (N.to_nat s0)) as [Q|Q]; [|apply X16; exact Y].
      exfalso. apply NIN. assert (d = s0) by lia. subst d. apply in_app_iff. left. eapply nth_error_In; eauto.
    + rewrite <- (app_assoc doneN). exact ND.
    + intros d Hd. apply HB. rewrite in_app_iff in *. cbn [In] in *. tauto.
    + rewrite app_length. cbn [length] in *. lia.
    + cbn [fst g_specials g_pairs]. rewrite !app_length. cbn [length] in *. destruct HF as (F1 & F2). unfold fits.
      replace (length (g_specials g) + 1 + length news)%nat with (length (g_specials g) + S (length news))%nat by lia.
      split; [lia|]. intros HN. specialize (F2 ltac:(lia)).
      replace (length (g_specials g) + S (length news) - 1)%nat with (length (g_specials g) + 1 + length news - 1)%nat in F2 by lia. lia.
  - (* a freed symbol *)
    bd H. bd H. bd H. bd H. bd H. bd H. apply set_inv in E0, E7, E8. destruct E0 as (B1 & ->). destruct E7 as (B2 & ->). destruct E8 as (B3 & ->).
    apply get_inv in E. apply back_inv in E5. destruct E5 as (sp & ESP). rename a1 into last, a2 into spPair.
    assert (LSP : length (g_specials g) = S (length sp)) by (rewrite ESP, app_length; cbn [length]; lia).
    assert (HX : (0 < length (g_specials g) /\ (length (g_specials g) - 1) * (length (g_specials g) - 1) + 1 <= length (g_pairs g) < length (g_specials g) * length (g_specials g))%nat).
    { destruct X13 as [(U1 & U2)|X13]; [lia|]. lia. }
    set (s := length (g_specials g)) in *. set (q := length (g_pairs g)) in *.
    assert (SB : (s <= 256)%nat) by lia.
    assert (IX : (N.of_nat q + two32 - ((N.of_nat s - 1) * (N.of_nat s - 1) + 1) mod two32) mod two32 = N.of_nat (q - ((s - 1) * (s - 1) + 1))).
    { assert ((s * s <= 256 * 256)%nat) by (apply Nat.mul_le_mono; assumption).
      assert (EQ : (N.of_nat s - 1) * (N.of_nat s - 1) + 1 = N.of_nat ((s - 1) * (s - 1) + 1)) by lia. rewrite EQ.
      set (o := ((s - 1) * (s - 1) + 1)%nat) in *. clearbody o. clear EQ.
      rewrite (N.mod_small (N.of_nat o)) by (unfold two32; lia).
      replace (N.of_nat q + two32 - N.of_nat o) with (N.of_nat (q - o) + 1 * two32) by (unfold two32; lia).
      rewrite N.mod_add by discriminate. apply N.mod_small. unfold two32. lia. }
    rewrite IX in E6. clear IX. set (idx := (q - ((s - 1) * (s - 1) + 1))%nat) in *.
    assert (LASTN : nth_error (g_specials g) (s - 1) = Some last).
    { rewrite ESP. rewrite nth_error_app2 by lia. replace (s - 1 - length sp)%nat with 0%nat by lia. reflexivity. }
    assert (PN : exists i j x y, number i j = q /\ i <> j /\ nth_error (g_specials g) i = Some x /\ nth_error (g_specials g) j = Some y /\ spPair = pair16 x y).
    { destruct (N.ltb_spec (N.of_nat idx) (N.of_nat s - 1)) as [LT|GE].
      - bd E6. apply get_inv in E0. injection E6 as <-. rewrite Nat2N.id in E0. match type of E0 with _ = Some ?v => exists idx, (s - 1)%nat, v, last end.
        split. { unfold number. destruct (Nat.eqb_spec idx (s - 1)); [lia|]. destruct (Nat.ltb_spec (s - 1) idx); [lia|]. unfold idx. lia. }
        split; [lia|]. auto.
      - bd E6. apply get_inv in E0. injection E6 as <-. replace (N.to_nat (N.of_nat idx + 1 - N.of_nat s)) with (idx + 1 - s)%nat in E0 by lia.
        assert (idx + 1 - s < s - 1)%nat by (unfold idx; nia).
        match type of E0 with _ = Some ?v => exists (s - 1)%nat, (idx + 1 - s)%nat, last, v end.
        split. { unfold number. destruct (Nat.eqb_spec (s - 1) (idx + 1 - s)); [lia|]. destruct (Nat.ltb_spec (idx + 1 - s) (s - 1)); [|lia]. unfold idx. nia. }
        split; [lia|]. auto. }
    assert (NIN : ~ In c (doneF ++ doneN)).
    { intros I. apply in_app_iff in I. apply NoDup_remove_2 in ND. apply ND. rewrite !in_app_iff. tauto. }
    assert (TV : a = flagged (g_variable g0) c).
    { pose proof (X9 c) as V. unfold flagged at 1 in V. rewrite (nth_error_nth _ _ false E) in V.
      assert (~ In c doneF) by (intros I; apply NIN; apply in_app_iff; auto).
      destruct V as (V1 & V2). destruct a, (flagged (g_variable g0) c); auto. destruct (V1 eq_refl); [congruence|contradiction]. }
    apply (IH freed news (doneF ++ [c]) doneN) in H.
    + rewrite <- app_assoc in H. exact H.
    + unfold expanded. cbn [g_specials g_pairs g_rules g_rhs g_freqs g_new g_special g_variable]. fold s.
      split; [exact X1|]. split; [exact X2|]. split; [exact X3|]. split; [exact X4|]. split; [exact X5|].
      split; [exact X6|]. split; [exact X7|]. split; [rewrite upd_length; exact X8|]. split.
      { intros d. rewrite flagged_upd by exact B1. rewrite in_app_iff. cbn [In]. destruct (N.eqb_spec d c) as [->|NE]; [tauto|]. rewrite X9. intuition congruence. }
      split; [rewrite upd_length; exact X10|]. split; [rewrite upd_length; exact X11|]. split.
      { intros d. rewrite flagged_upd by exact B2. rewrite !in_app_iff. cbn [In]. destruct (N.eqb_spec d c) as [->|NE]; [tauto|]. rewrite X12, in_app_iff. intuition congruence. }
      rewrite !app_length. cbn [length]. fold q. split; [right; lia|]. split.
      { exists (ext ++ [(a, c)]). split; [rewrite E1, app_assoc; reflexivity|]. split; [rewrite app_length; cbn [length]; lia|]. split.
        - intros d Hd. rewrite !in_app_iff in Hd. cbn [In] in Hd. assert (HD : In d (doneF ++ doneN) \/ c = d) by (rewrite in_app_iff; tauto).
          destruct HD as [HD|<-].
          + destruct (E3 d HD) as (m & fl & Y). exists m, fl. rewrite nth_error_app1; [exact Y|]. eapply nth_error_bound; eauto.
          + exists (length ext), a. rewrite nth_error_app2, Nat.sub_diag by lia. reflexivity.
        - intros m fl d Y. destruct (Nat.lt_ge_cases m (length ext)) as [M|M].
          + rewrite nth_error_app1 in Y by exact M. destruct (E4 m fl d Y) as (i & j & x & y & N1 & N2 & N3 & N4 & N5 & N6).
            exists i, j, x, y. split; [exact N1|]. split; [exact N2|]. split; [exact N3|]. split.
            { rewrite nth_upd by exact B3. destruct (Nat.eqb_spec (N.to_nat d) (N.to_nat c)) as [Q|Q]; [|exact N4]. exfalso. apply NIN.
              assert (d = c) by lia. subst d. destruct (Nat.eq_dec i j) as [IJ|IJ]; [destruct (N5 IJ) as (V & _)|destruct (N6 IJ) as (V & _)]; apply in_app_iff; auto. }
            split; [exact N5|]. intros IJ. destruct (N6 IJ) as (V1 & V2). split; [apply in_app_iff; auto|exact V2].
          + rewrite nth_error_app2 in Y by exact M. destruct (m - length ext)%nat as [|m'] eqn:EM; [|destruct m'; discriminate].
            injection Y as <- <-. destruct PN as (i & j & x & y & N1 & NE & N2 & N3 & N4). exists i, j, x, y.
            split; [lia|]. split; [exact N2|]. split; [exact N3|]. split; [rewrite nth_upd, Nat.eqb_refl by exact B3; exact N4|].
            split; [congruence|]. intros _. split; [apply in_app_iff; right; left; reflexivity|exact TV]. }
      split; [lia|]. intros i d Y. destruct (Nat.lt_ge_cases i (length doneF)) as [M|M].
      * rewrite nth_error_app1 in Y by exact M. rewrite nth_error_app1 by lia. rewrite nth_upd by exact B3.
        destruct (Nat.eqb_spec (N.to_nat d) (N.to_nat c)) as [Q|Q]; [|apply X16; exact Y].
        exfalso. apply NIN. assert (d = c) by lia. subst d. apply in_app_iff. left. eapply nth_error_In; eauto.
      * rewrite nth_error_app2 in Y by exact M. destruct (i - length doneF)%nat as [|m'] eqn:EM; [|destruct m'; discriminate].
        injection Y as <-. rewrite nth_error_app2 by lia. replace (i - length next)%nat with 0%nat by lia. cbn [nth_error].
        rewrite nth_upd, Nat.eqb_refl by exact B3. reflexivity.
    + rewrite <- app_assoc. exact ND.
    + intros d Hd. apply HB. cbn [app In]. right. exact Hd.
    + exact HS.
    + cbn [fst g_specials g_pairs]. rewrite !app_length. cbn [length] in *. fold s q. fold s q in HF. destruct HF as (F1 & F2). split; [lia|]. intros HN. specialize (F2 HN). lia.
Qed.

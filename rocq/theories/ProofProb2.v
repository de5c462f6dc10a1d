(** The probability models no factory function returns: lemmas. *)
From Coq Require Import List NArith ZArith Lia Arith Bool.
From Coq Require Import ZifyBool ZifyNat ZifyN.
From Verif Require Import Base Arrays ModelUtils ModelBitCoder ModelProb ModelProb2 SpecProb ProofProb SpecProb2.
Import ListNotations.
Open Scope N_scope.

(** ** Codable predictors and invariants *)

Lemma good_codable : forall P I, good P I -> codable P.
Proof. intros P I G h. exact (good_predict P I G h). Qed.

Definition reached (P : predictor) (s : p_state P) : Prop := exists h, useAll P (p_init P) h = Ok s.

Lemma codable_good : forall P, codable P -> good P (reached P).
Proof.
  intros P C. split; [exists []; reflexivity|]. split.
  - intros s (h & E). destruct (C h) as (p & Q & B). unfold predict, predictFrom in Q. rewrite E in Q. cbn [bind] in Q. eauto.
  - intros s u (h & E). destruct (C (h ++ [u])) as (p & Q & B). unfold predict, predictFrom in Q. rewrite useAll_app, E in Q. cbn [bind useAll] in Q.
    destruct (use1 P s u) as [s'| |] eqn:U; [|discriminate..]. exists s'. split; [reflexivity|]. exists (h ++ [u]). rewrite useAll_app, E. cbn [bind useAll]. rewrite U. reflexivity.
Qed.

(** ** Single predictors *)

Lemma interval_facts : forall M, 2 <= M -> 4096 / M * M = 4096 -> 1 <= 4096 / M <= 2048 /\ M / 2 * 2 <= M /\ M <= M / 2 * 2 + 1 /\ 1 <= M / 2 /\ 4096 / M * (M / 2) * 2 <= 4096.
Proof.
  intros M H1 H2. pose proof (N.div_mod M 2 ltac:(lia)) as D. pose proof (N.mod_lt M 2 ltac:(lia)). set (q := 4096 / M) in *. clearbody q. set (k := M / 2) in *. clearbody k.
  assert (1 <= q) by (destruct q; [discriminate|lia]). assert (q * 2 <= 4096) by nia. assert (q * k * 2 <= 4096) by nia. lia.
Qed.

Lemma good_even : forall M, 2 <= M -> 4096 / M * M = 4096 -> good (EvenIntervalPredictor M) (fun p => 0 < p < 4096).
Proof.
  intros M H1 H2. destruct (interval_facts M H1 H2) as (A & B & C & D & E).
  assert (I0 : 0 < (4096 / M * (M / 2)) mod 65536 < 4096) by (rewrite N.mod_small by lia; nia).
  split; [exact I0|]. split; [intros s H; exists s; split; [reflexivity|exact H]|].
  intros s u H. destruct u as [[|]|b|]; cbn [use1 EvenIntervalPredictor p_update p_updateState p_reset]; (eexists; split; [reflexivity|]).
  - cbv beta zeta. rewrite N.mod_small by lia. change kProbabilityScale with 4096. destruct (N.ltb_spec (s + 4096 / M) 4096); lia.
  - destruct (N.ltb_spec (4096 / M) s); lia.
  - exact H.
  - exact I0.
Qed.

Lemma good_even2 : good EvenIntervalPredictor2 (fun p => 0 < p < 4096).
Proof.
  split; [cbn; lia|]. split; [intros s H; exists s; split; [reflexivity|exact H]|].
  intros s u H. destruct u as [[|]|b|]; cbn [use1 EvenIntervalPredictor2 p_update p_updateState p_reset]; (eexists; split; [reflexivity|]); first [exact H|lia].
Qed.
Lemma good_even3 : good EvenIntervalPredictor3 (fun p => 0 < p < 4096).
Proof.
  split; [cbn; lia|]. split; [intros s H; exists s; split; [reflexivity|exact H]|].
  intros s u H. destruct u as [[|]|b|]; cbn [use1 EvenIntervalPredictor3 p_update p_updateState p_reset]; (eexists; split; [reflexivity|]); first [exact H|lia].
Qed.
Lemma good_even5 : good EvenIntervalPredictor5 (fun p => 0 < p < 4096).
Proof.
  split; [cbn; lia|]. split; [intros s H; exists s; split; [reflexivity|exact H]|].
  intros s u H. destruct u as [[|]|b|]; cbn [use1 EvenIntervalPredictor5 p_update p_updateState p_reset]; (eexists; split; [reflexivity|]); try exact H; try lia;
  repeat match goal with |- context [if ?c then _ else _] => destruct c end; lia.
Qed.

Lemma reduce_ok : forall fuel p inc, 0 < p < 4096 -> inc < 2 ^ N.of_nat fuel -> inc <= 4096 ->
  exists q, reduceIncrease fuel ((p + inc) mod 65536) inc = Ok q /\ 0 < q < 4096.
Proof.
  induction fuel as [|f IH]; intros p inc Hp Hi Hk; cbn [reduceIncrease]; change kProbabilityScale with 4096; rewrite N.mod_small by lia.
  - change (2 ^ N.of_nat 0) with 1 in Hi. destruct (N.leb_spec 4096 (p + inc)); [lia|]. eexists. split; [reflexivity|lia].
  - destruct (N.leb_spec 4096 (p + inc)); [|eexists; split; [reflexivity|lia]].
    replace ((p + inc + 65536 - inc) mod 65536) with p by (replace (p + inc + 65536 - inc) with (p + 1 * 65536) by lia; rewrite N.mod_add by lia; rewrite N.mod_small; lia).
    rewrite N.shiftr_div_pow2. change (2 ^ 1) with 2. apply IH; [exact Hp| |].
    + apply N.div_lt_upper_bound; [lia|]. rewrite Nat2N.inj_succ, N.pow_succ_r' in Hi. exact Hi.
    + pose proof (N.div_le_upper_bound inc 2 4096 ltac:(lia) ltac:(lia)). lia.
Qed.

Lemma good_biased : forall M, 2 <= M -> 4096 / M * M = 4096 -> good (BiasedOnePredictor M) (fun p => 0 < p < 4096).
Proof.
  intros M H1 H2. destruct (interval_facts M H1 H2) as (A & B & C & D & E).
  assert (I0 : 0 < (4096 / M * (M / 2)) mod 65536 < 4096) by (rewrite N.mod_small by lia; nia).
  assert (I1 : 0 < (M - 1) * (4096 / M) < 4096) by nia.
  split; [exact I0|]. split; [intros s H; exists s; split; [reflexivity|exact H]|].
  intros s u H. destruct u as [[|]|b|]; cbn [use1 BiasedOnePredictor p_update p_updateState p_reset].
  - apply reduce_ok; [exact H| |lia]. change (2 ^ N.of_nat 17) with 131072. lia.
  - eexists. split; [reflexivity|]. cbv beta zeta. set (k := (M - 1) * (4096 / M)) in *. clearbody k. destruct (N.ltb_spec k s); [rewrite N.mod_small by lia; lia|].
    destruct (N.ltb_spec (4096 / M) s); lia.
  - eauto.
  - eexists. split; [reflexivity|exact I0].
Qed.

(** The step is a power of two; probability and step add up to 2048 and another such power, unless the probability is 1024. *)
Definition steps : list N := [1; 2; 4; 8; 16; 32; 64; 128; 256; 512; 1024; 2048].
Definition aggressive_states : list (N * N) :=
  map (fun s => (1024, s)) steps ++ flat_map (fun c => map (fun s => (2048 + c - s, s)) (filter (fun s => s <=? c) steps)) steps.
Lemma good_aggressive : good AggressiveOnePredictor (fun s => In s aggressive_states).
Proof.
  assert (T : forallb (fun s => (0 <? fst s) && (fst s <? 4096) &&
     existsb (fun t => match p_update AggressiveOnePredictor s true with Ok q => (fst q =? fst t) && (snd q =? snd t) | _ => false end) aggressive_states &&
     existsb (fun t => match p_update AggressiveOnePredictor s false with Ok q => (fst q =? fst t) && (snd q =? snd t) | _ => false end) aggressive_states &&
     existsb (fun t => match p_reset AggressiveOnePredictor s with Ok q => (fst q =? fst t) && (snd q =? snd t) | _ => false end) aggressive_states)%bool aggressive_states = true)
    by (vm_compute; reflexivity).
  rewrite forallb_forall in T.
  assert (X : forall (o : outcome (N * N)), existsb (fun t => match o with Ok q => (fst q =? fst t) && (snd q =? snd t) | _ => false end)%bool aggressive_states = true ->
    exists s', o = Ok s' /\ In s' aggressive_states).
  { intros o Q. apply existsb_exists in Q. destruct Q as ((a & b) & IN & Q). destruct o as [(c & d)| |]; [|discriminate..]. cbn [fst snd] in Q. apply andb_true_iff in Q. destruct Q as (Q1 & Q2).
    apply N.eqb_eq in Q1, Q2. subst. eauto. }
  split; [vm_compute; tauto|]. split.
  - intros s H. specialize (T s H). repeat (apply andb_true_iff in T; destruct T as (T & ?)). destruct s as (p & st). cbn [fst] in *. exists p. split; [reflexivity|]. lia.
  - intros s u H. specialize (T s H). repeat (apply andb_true_iff in T; destruct T as (T & ?)). destruct u as [[|]|b|]; cbn [use1]; auto. cbn. eauto.
Qed.

(** ** FrequencePredictor *)

Lemma freq_state : forall A bits o z, o + z + N.of_nat (length bits) < two64 ->
  exists o' z', useAll (FrequencePredictor A) (o, z) (map Coded bits) = Ok (o', z') /\ o' + z' = o + z + N.of_nat (length bits).
Proof.
  intros A. induction bits as [|b bits IH]; intros o z H; [exists o, z; split; [reflexivity|cbn [length]; lia]|].
  cbn [map useAll use1]. cbn [FrequencePredictor p_update bind]. cbn [length] in H. unfold two64 in H. destruct b; rewrite N.mod_small by (unfold two64; lia).
  - destruct (IH (o + 1) z) as (o' & z' & E & Q); [unfold two64; lia|]. exists o', z'. split; [exact E|cbn [length]; lia].
  - destruct (IH o (z + 1)) as (o' & z' & E & Q); [unfold two64; lia|]. exists o', z'. split; [exact E|cbn [length]; lia].
Qed.

Lemma frequence_exactly : forall A bits, 0 < A < 65536 -> N.of_nat (length bits) < 2 ^ 63 ->
  exists p, predict (FrequencePredictor A) (map Coded bits) = Ok p /\ p < 4096 /\ (0 < p <-> N.of_nat (length bits) + 2 * A <= 4096).
Proof.
  intros A bits HA HL. change (2 ^ 63) with 9223372036854775808 in HL. unfold predict, predictFrom.
  destruct (freq_state A bits 0 0) as (o & z & E & Q); [change two64 with 18446744073709551616; lia|]. change (p_init (FrequencePredictor A)) with (0, 0). rewrite E. cbn [bind FrequencePredictor p_prob].
  change two64 with 18446744073709551616. set (T := 18446744073709551616) in *. rewrite !(N.mod_small (o + z)), (N.mod_small (o + A)), (N.mod_small (o + z + 2 * A)) by (unfold T; lia).
  destruct (N.eqb_spec (o + z + 2 * A) 0); [lia|]. eexists. split; [reflexivity|].
  destruct (N.le_gt_cases (o + z + 2 * A) 4096) as [L|L].
  - assert (D : 1 <= 4096 / (o + z + 2 * A)) by (apply N.div_le_lower_bound; lia).
    pose proof (N.mul_div_le 4096 (o + z + 2 * A) ltac:(lia)) as U. set (q := 4096 / (o + z + 2 * A)) in *. clearbody q. assert (q * (o + A) < 4096) by nia. assert (0 < q * (o + A)) by nia.
    set (w := q * (o + A)) in *. clearbody w. rewrite (N.mod_small w T), (N.mod_small w 65536) by (unfold T; lia). split; [lia|]. split; [lia|intros; lia].
  - rewrite N.div_small by lia. rewrite N.mul_0_l. change (0 mod T mod 65536) with 0. split; [lia|]. split; [lia|]. intros X. exfalso. clear - X L Q. lia.
Qed.

(** ** Automata *)

Lemma nextStateAny_lt : forall n cur b, (cur < n)%nat -> exists m, nextStateAny n cur b = Ok m /\ (m < n)%nat.
Proof.
  intros n cur b Hc.
  assert (G : (nextStateGeneric n cur b < n)%nat).
  { unfold nextStateGeneric. pose proof (Nat.mul_div_le n 2). pose proof (Nat.mul_div_le (n - 1) 2). destruct b.
    - destruct (Nat.leb_spec (n / 2) cur); [lia|]. apply Nat.div_lt; lia.
    - destruct (Nat.ltb_spec cur (n / 2)); [lia|]. destruct n as [|[|n]]; [lia|cbn; lia|]. assert ((S (S n) - 1) / 2 <= S (S n) - 1)%nat by (apply Nat.div_le_upper_bound; lia). lia. }
  destruct n as [|[|[|[|[|[|[|[|[|[|n]]]]]]]]]]; try (eexists; split; [reflexivity|exact G]); try lia.
  - eexists. split; [reflexivity|]. destruct b; lia.
  - eexists. split; [reflexivity|]. unfold nextState3. destruct b; destruct cur as [|[|[|cur]]]; cbn; lia.
  - unfold nextStateAny, nextState9. destruct b; do 9 (destruct cur as [|cur]; [eexists; split; [reflexivity|lia]|]); lia.
Qed.

Lemma get_some : forall {A} (l : list A) i, (i < length l)%nat -> exists x, get l i = Ok x /\ In x l.
Proof.
  intros A l i H. unfold get. destruct (nth_error l i) eqn:E; [|apply nth_error_None in E; lia]. eexists. split; [reflexivity|]. eapply nth_error_In. exact E.
Qed.

Lemma good_fsmAny : forall n P I, (1 <= n)%nat -> good P I -> good (FSMany n P) (fun st => (fst st < n)%nat /\ length (snd st) = n /\ Forall I (snd st)).
Proof.
  intros n P I Hn (G1 & G2 & G3). assert (H2 : (n / 2 < n)%nat) by (apply Nat.div_lt; lia).
  split; [|split].
  - cbn [FSMany p_init fst snd]. split; [exact H2|]. split; [apply repeat_length|]. apply Forall_forall. intros x Hx. apply repeat_spec in Hx. subst. exact G1.
  - intros (cur & l) (A & B & C). cbn [fst snd] in *. cbn [FSMany p_prob fst snd]. destruct (get_some l cur) as (s & E & IN); [lia|]. rewrite E. cbn [bind]. apply G2. rewrite Forall_forall in C. auto.
  - intros (cur & l) u (A & B & C). cbn [fst snd] in *. destruct u as [b|b|]; cbn [use1 FSMany p_update p_updateState p_reset fst snd].
    + destruct (get_some l cur) as (s & E & IN); [lia|]. rewrite E. cbn [bind]. rewrite Forall_forall in C. destruct (G3 s (Coded b) (C s IN)) as (s' & E' & I'). cbn [use1] in E'. rewrite E'. cbn [bind].
      destruct (nextStateAny_lt n cur b A) as (m & -> & L). cbn [bind]. eexists. split; [reflexivity|]. cbn [fst snd]. rewrite setNth_length. split; [exact L|]. split; [exact B|].
      apply setNth_Forall; [apply Forall_forall; exact C|exact I'].
    + destruct (nextStateAny_lt n cur b A) as (m & -> & L). cbn [bind]. eexists. split; [reflexivity|]. cbn [fst snd]. auto.
    + assert (R : exists l', resetAll P l = Ok l' /\ length l' = length l /\ Forall I l').
      { clear - C G3. induction C as [|s l Hs Hl IH]; [exists []; auto|]. destruct (G3 s NewContext Hs) as (s' & E' & I'). cbn [use1] in E'. destruct IH as (l' & A & B & C). cbn [resetAll].
        rewrite E', A. cbn [bind]. eexists. split; [reflexivity|]. cbn [length]. split; auto. }
      destruct R as (l' & -> & R2 & R3). cbn [bind]. eexists. split; [reflexivity|]. cbn [fst snd]. repeat split; auto; lia.
Qed.

Lemma good_fsm6 : forall Z3 Z2 Z1 I3 I2 I1, good Z3 I3 -> good Z2 I2 -> good Z1 I1 ->
  good (FSM6 Z3 Z2 Z1) (fun '(mkFsm6 _ _ _ c a3 a2 a1 b1 b2 b3) => (c < 6)%nat /\ I3 a3 /\ I2 a2 /\ I1 a1 /\ I1 b1 /\ I2 b2 /\ I3 b3).
Proof.
  intros Z3 Z2 Z1 I3 I2 I1 G3 G2 G1. pose proof (good_inverse _ _ G3) as J3. pose proof (good_inverse _ _ G2) as J2. pose proof (good_inverse _ _ G1) as J1.
  split; [|split].
  - cbn. repeat split; try lia; first [apply G1|apply G2|apply G3].
  - intros [c a3 a2 a1 b1 b2 b3] (C & H3 & H2 & H1 & K1 & K2 & K3). unfold FSM6. cbn [p_prob].
    do 6 (destruct c as [|c]; [first [apply (proj1 (proj2 G3)); assumption|apply (proj1 (proj2 G2)); assumption|apply (proj1 (proj2 G1)); assumption|apply (proj1 (proj2 J1)); assumption|apply (proj1 (proj2 J2)); assumption|apply (proj1 (proj2 J3)); assumption]|]). lia.
  - intros [c a3 a2 a1 b1 b2 b3] u (C & H3 & H2 & H1 & K1 & K2 & K3). unfold FSM6. destruct u as [b|b|]; cbn [use1 p_update p_updateState p_reset].
    + destruct (nextStateAny_lt 6 c b C) as (n & -> & L). cbn [bind].
      destruct (proj2 (proj2 G3) a3 (Coded b) H3) as (s3 & E3 & Q3). destruct (proj2 (proj2 G2) a2 (Coded b) H2) as (s2 & E2 & Q2). destruct (proj2 (proj2 G1) a1 (Coded b) H1) as (s1 & E1 & Q1).
      destruct (proj2 (proj2 J1) b1 (Coded b) K1) as (t1 & F1 & R1). destruct (proj2 (proj2 J2) b2 (Coded b) K2) as (t2 & F2 & R2). destruct (proj2 (proj2 J3) b3 (Coded b) K3) as (t3 & F3 & R3). cbn [use1] in *.
      destruct c as [|[|[|[|[|[|c]]]]]];
        [rewrite E3|rewrite E2|rewrite E1|rewrite F1|rewrite F2|rewrite F3|lia]; cbn [bind]; (eexists; split; [reflexivity|]); cbn beta iota; tauto.
    + destruct (nextStateAny_lt 6 c b C) as (n & -> & L). cbn [bind]. eexists. split; [reflexivity|]. cbn beta iota. tauto.
    + destruct (proj2 (proj2 G3) a3 NewContext H3) as (s3 & E3 & Q3). destruct (proj2 (proj2 G2) a2 NewContext H2) as (s2 & E2 & Q2). destruct (proj2 (proj2 G1) a1 NewContext H1) as (s1 & E1 & Q1).
      destruct (proj2 (proj2 J1) b1 NewContext K1) as (t1 & F1 & R1). destruct (proj2 (proj2 J2) b2 NewContext K2) as (t2 & F2 & R2). destruct (proj2 (proj2 J3) b3 NewContext K3) as (t3 & F3 & R3).
      cbn [use1] in *. rewrite E3, E2, E1, F1, F2, F3. cbn [bind]. eexists. split; [reflexivity|]. cbn beta iota. tauto.
Qed.

Lemma good_fsm9 : forall Z4 Z3 Z2 Z1 D I4 I3 I2 I1 I0, good Z4 I4 -> good Z3 I3 -> good Z2 I2 -> good Z1 I1 -> good D I0 ->
  good (FSM9 Z4 Z3 Z2 Z1 D) (fun '(mkFsm9 _ _ _ _ _ c a4 a3 a2 a1 d b1 b2 b3 b4) =>
    (c < 9)%nat /\ I4 a4 /\ I3 a3 /\ I2 a2 /\ I1 a1 /\ I0 d /\ I1 b1 /\ I2 b2 /\ I3 b3 /\ I4 b4).
Proof.
  intros Z4 Z3 Z2 Z1 D I4 I3 I2 I1 I0 G4 G3 G2 G1 G0. pose proof (good_inverse _ _ G4) as J4. pose proof (good_inverse _ _ G3) as J3. pose proof (good_inverse _ _ G2) as J2. pose proof (good_inverse _ _ G1) as J1.
  split; [|split].
  - cbn. repeat split; try lia; first [apply G0|apply G1|apply G2|apply G3|apply G4].
  - intros [c a4 a3 a2 a1 d b1 b2 b3 b4] (C & H4 & H3 & H2 & H1 & H0 & K1 & K2 & K3 & K4). unfold FSM9. cbn [p_prob].
    do 9 (destruct c as [|c]; [first [apply (proj1 (proj2 G4)); assumption|apply (proj1 (proj2 G3)); assumption|apply (proj1 (proj2 G2)); assumption|apply (proj1 (proj2 G1)); assumption|apply (proj1 (proj2 G0)); assumption|apply (proj1 (proj2 J1)); assumption|apply (proj1 (proj2 J2)); assumption|apply (proj1 (proj2 J3)); assumption|apply (proj1 (proj2 J4)); assumption]|]). lia.
  - intros [c a4 a3 a2 a1 d b1 b2 b3 b4] u (C & H4 & H3 & H2 & H1 & H0 & K1 & K2 & K3 & K4). unfold FSM9. destruct u as [b|b|]; cbn [use1 p_update p_updateState p_reset].
    + destruct (nextStateAny_lt 9 c b C) as (n & -> & L). cbn [bind].
      destruct (proj2 (proj2 G4) a4 (Coded b) H4) as (s4 & E4 & Q4). destruct (proj2 (proj2 G3) a3 (Coded b) H3) as (s3 & E3 & Q3). destruct (proj2 (proj2 G2) a2 (Coded b) H2) as (s2 & E2 & Q2). destruct (proj2 (proj2 G1) a1 (Coded b) H1) as (s1 & E1 & Q1). destruct (proj2 (proj2 G0) d (Coded b) H0) as (s0 & E0 & Q0).
      destruct (proj2 (proj2 J1) b1 (Coded b) K1) as (t1 & F1 & R1). destruct (proj2 (proj2 J2) b2 (Coded b) K2) as (t2 & F2 & R2). destruct (proj2 (proj2 J3) b3 (Coded b) K3) as (t3 & F3 & R3). destruct (proj2 (proj2 J4) b4 (Coded b) K4) as (t4 & F4 & R4). cbn [use1] in *.
      destruct c as [|[|[|[|[|[|[|[|[|c]]]]]]]]];
        [rewrite E4|rewrite E3|rewrite E2|rewrite E1|rewrite E0|rewrite F1|rewrite F2|rewrite F3|rewrite F4|lia]; cbn [bind]; (eexists; split; [reflexivity|]); cbn beta iota; tauto.
    + destruct (nextStateAny_lt 9 c b C) as (n & -> & L). cbn [bind]. eexists. split; [reflexivity|]. cbn beta iota. tauto.
    + destruct (proj2 (proj2 G4) a4 NewContext H4) as (s4 & E4 & Q4). destruct (proj2 (proj2 G3) a3 NewContext H3) as (s3 & E3 & Q3). destruct (proj2 (proj2 G2) a2 NewContext H2) as (s2 & E2 & Q2). destruct (proj2 (proj2 G1) a1 NewContext H1) as (s1 & E1 & Q1). destruct (proj2 (proj2 G0) d NewContext H0) as (s0 & E0 & Q0).
      destruct (proj2 (proj2 J1) b1 NewContext K1) as (t1 & F1 & R1). destruct (proj2 (proj2 J2) b2 NewContext K2) as (t2 & F2 & R2). destruct (proj2 (proj2 J3) b3 NewContext K3) as (t3 & F3 & R3). destruct (proj2 (proj2 J4) b4 NewContext K4) as (t4 & F4 & R4).
      cbn [use1] in *. rewrite E4, E3, E2, E1, E0, F1, F2, F3, F4. cbn [bind]. eexists. split; [reflexivity|]. cbn beta iota. tauto.
Qed.

Lemma land_mask_lt : forall x H, N.land x (2 ^ H - 1) < 2 ^ H.
Proof.
  intros x H. rewrite <- N.pred_sub. change (N.pred (2 ^ H)) with (N.pred (2 ^ H)). rewrite <- N.ones_equiv. rewrite N.land_ones. apply N.mod_lt. apply N.pow_nonzero. lia.
Qed.

Lemma good_limited : forall P I H, good P I -> good (LimitedHistoryModel P H) (fun st => fst st < 2 ^ H /\ forall i, I (snd st i)).
Proof.
  intros P I H (G1 & G2 & G3). split; [|split].
  - cbn [LimitedHistoryModel p_init fst snd]. split; [apply land_mask_lt|auto].
  - intros (h & t) (A & B). cbn [fst snd] in *. cbn [LimitedHistoryModel p_prob fst snd]. destruct (N.ltb_spec h (2 ^ H)); [|lia]. auto.
  - intros (h & t) u (A & B). cbn [fst snd] in *. destruct u as [b|b|]; cbn [use1 LimitedHistoryModel p_update p_updateState p_reset fst snd].
    + destruct (N.ltb_spec h (2 ^ H)); [|lia]. destruct (G3 (t h) (Coded b) (B h)) as (s & E & J). cbn [use1] in E. rewrite E. cbn [bind]. eexists. split; [reflexivity|]. cbn [fst snd].
      split; [apply land_mask_lt|]. intros i. destruct (i =? h); auto.
    + eexists. split; [reflexivity|]. cbn [fst snd]. split; [apply land_mask_lt|auto].
    + eexists. split; [reflexivity|]. auto.
Qed.

(** ** DMC *)

Section Dmc.
Variables (Split : N) (Max : nat) (Delay : N) (Buf : nat) (P : predictor) (I : p_state P -> Prop).
Hypothesis G : good P I.
Hypothesis HM : (1 <= Max)%nat.
Hypothesis HB : (1 <= Buf)%nat.

Definition dmcInv (st : dmc P) : Prop :=
  (m_current P st < length (m_states P st) <= Max)%nat /\ (length (m_buffer P st) <= Buf)%nat /\
  Forall (fun s => (d_zeroT P s < length (m_states P st))%nat /\ (d_oneT P s < length (m_states P st))%nat /\ I (d_pred P s)) (m_states P st).

Lemma fresh_inv : dmcInv (dmcFresh P).
Proof.
  split; [cbn; lia|]. split; [cbn; lia|]. repeat constructor. exact (proj1 G).
Qed.

Lemma dmc_update : forall fuel st bit, dmcInv st ->
  match dmcUpdate Split Max Delay Buf P fuel st bit with Ok st' => dmcInv st' | UB => False | Fuel => True end.
Proof.
  induction fuel as [|f IH]; intros st bit (A & B & C); [exact Logic.I|]. cbn [dmcUpdate].
  assert (BF : exists buffer, (if (length (m_buffer P st) =? Buf)%nat then match m_buffer P st with [] => UB | _ :: r => Ok (r ++ [bit]) end else Ok (m_buffer P st ++ [bit])) = Ok buffer /\ (length buffer <= Buf)%nat).
  { destruct (Nat.eqb_spec (length (m_buffer P st)) Buf) as [E|E].
    - destruct (m_buffer P st) as [|x r]; cbn [length] in *; [lia|]. eexists. split; [reflexivity|]. rewrite app_length. cbn. lia.
    - eexists. split; [reflexivity|]. rewrite app_length. cbn. lia. }
  destruct BF as (buffer & -> & LB). cbn [bind]. set (n := length (m_states P st)) in *.
  destruct (get_some (m_states P st) (m_current P st)) as (s & E & IN); [fold n; lia|]. rewrite E. cbn [bind]. pose proof C as C0. rewrite Forall_forall in C. destruct (C s IN) as (S1 & S2 & S3).
  destruct (proj2 (proj2 G) _ (Coded bit) S3) as (p & EP & IP). cbn [use1] in EP. rewrite EP. cbn [bind].
  set (good1 := fun s : dmcState P => (d_zeroT P s < n)%nat /\ (d_oneT P s < n)%nat /\ I (d_pred P s)) in *.
  set (states := setNth (m_states P st) (m_current P st) _).
  assert (F1 : Forall good1 states) by (apply setNth_Forall; [exact C0|repeat split; assumption]).
  assert (L1 : length states = n) by apply setNth_length. clearbody states.
  set (next := if bit then d_oneT P s else d_zeroT P s). assert (LN : (next < n)%nat) by (unfold next; destruct bit; assumption). clearbody next.
  destruct (get_some states next) as (t & ET & INT); [lia|]. rewrite ET. cbn [bind]. pose proof F1 as F1'. rewrite Forall_forall in F1'. destruct (F1' t INT) as (T1 & T2 & T3).
  set (state := if bit then _ else _). assert (GS : good1 state) by (unfold state; destruct bit; repeat split; assumption). clearbody state.
  destruct ((Split <=? d_ones P state) && (Split <=? d_zeros P state))%bool.
  - destruct (Nat.eqb_spec n Max) as [EM|EM].
    + clear - IH G HM HB. pose proof fresh_inv as FI. revert FI. generalize (dmcFresh P) as st1. induction buffer as [|b r IHb]; intros st1 FI; [exact FI|].
      specialize (IH st1 b FI). destruct (dmcUpdate Split Max Delay Buf P f st1 b) as [st2| |]; [|contradiction|exact Logic.I]. cbn [bind]. apply IHb. exact IH.
    + cbn [m_current m_buffer m_states dmcInv]. unfold dmcInv. cbn [m_current m_buffer m_states]. rewrite app_length, setNth_length. cbn [length]. split; [lia|]. split; [exact LB|].
      destruct GS as (Q1 & Q2 & Q3). apply Forall_app. split.
      * apply setNth_Forall.
        -- eapply Forall_impl; [|exact F1]. intros x (X1 & X2 & X3). repeat split; [lia|lia|exact X3].
        -- cbn [d_zeroT d_oneT d_pred]. destruct bit; repeat split; try lia; exact Q3.
      * repeat constructor; cbn [d_zeroT d_oneT d_pred]; [lia|lia|exact (proj1 G)].
  - unfold dmcInv. cbn [m_current m_buffer m_states]. rewrite setNth_length. split; [lia|]. split; [exact LB|]. rewrite L1. apply setNth_Forall; [exact F1|exact GS].
Qed.

Lemma dmc_use : forall fuel h st, dmcInv st ->
  match useAll (DMC Split Max Delay Buf P fuel) st h with Ok st' => dmcInv st' | UB => False | Fuel => True end.
Proof.
  intros fuel. induction h as [|u h IH]; intros st H; [exact H|]. cbn [useAll].
  assert (X : match use1 (DMC Split Max Delay Buf P fuel) st u with Ok st' => dmcInv st' | UB => False | Fuel => True end).
  { destruct u as [b|b|]; cbn [use1 DMC p_update p_updateState p_reset].
    - apply dmc_update. exact H.
    - destruct H as (A & B & C). destruct (get_some (m_states P st) (m_current P st)) as (s & E & IN); [lia|]. rewrite E. cbn [bind]. rewrite Forall_forall in C. destruct (C s IN) as (S1 & S2 & S3).
      split; [cbn [m_current m_states]; destruct b; lia|]. split; [exact B|]. apply Forall_forall. exact C.
    - exact fresh_inv. }
  destruct (use1 (DMC Split Max Delay Buf P fuel) st u) as [st1| |]; [|contradiction|exact Logic.I]. cbn [bind]. apply IH. exact X.
Qed.

Lemma dmc_safe : forall fuel h, predict (DMC Split Max Delay Buf P fuel) h = Fuel \/ exists p, predict (DMC Split Max Delay Buf P fuel) h = Ok p /\ 0 < p < 4096.
Proof.
  intros fuel h. unfold predict, predictFrom. pose proof (dmc_use fuel h (dmcFresh P) fresh_inv) as U. change (p_init (DMC Split Max Delay Buf P fuel)) with (dmcFresh P).
  destruct (useAll (DMC Split Max Delay Buf P fuel) (dmcFresh P) h) as [st| |]; [|contradiction|left; reflexivity]. cbn [bind]. right. cbn [DMC p_prob].
  destruct U as (A & B & C). destruct (get_some (m_states P st) (m_current P st)) as (s & E & IN); [lia|]. rewrite E. cbn [bind]. apply (proj1 (proj2 G)). rewrite Forall_forall in C. apply C, IN.
Qed.
End Dmc.

Lemma good_resets_predict : forall P, (forall s, p_reset P s = Ok (p_init P)) -> codable P ->
  forall before after, predict P (before ++ NewContext :: after) = predict P after.
Proof. intros P R C. apply (resets_predict P (reached P)); [apply codable_good, C|]. intros s _. apply R. Qed.

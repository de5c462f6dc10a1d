(** The analysis counts no pair more often than it occurs. *)
From Coq Require Import List NArith ZArith Lia Arith Bool.
From Coq Require Import ZifyBool ZifyNat ZifyN.
From Verif Require Import Base Arrays TArray ModelUtils ModelStreams ModelSort ModelFreq ModelGrammar ModelPairs ProofUtils1 ProofGrammar3 ProofPairs1 ProofPairs2.
Import ListNotations.
Open Scope N_scope.

(** Number of places at which a and b stand next to each other. *)
Fixpoint occ (l : list N) (a b : N) : N :=
  match l with
  | [] => 0
  | x :: r => (match r with y :: _ => if (a =? x) && (b =? y) then 1 else 0 | [] => 0 end) + occ r a b
  end.
Lemma occ_snoc : forall l x y a b, occ (l ++ [x; y]) a b = occ (l ++ [x]) a b + (if (a =? x) && (b =? y) then 1 else 0).
Proof.
  induction l as [|z l IH]; intros x y a b; [cbn; lia|]. change ((z :: l) ++ [x; y]) with (z :: (l ++ [x; y])). change ((z :: l) ++ [x]) with (z :: (l ++ [x])).
  cbn [occ]. rewrite IH. destruct l as [|w l]; cbn [app]; lia.
Qed.

Definition counted (done : list N) (st : analysis) : Prop :=
  (exists d, done = d ++ [a_prev st mod 256]) /\
  forall a b, a < 256 -> b < 256 -> tval (a_pairs st) (pair16 a b) <= occ done a b.

Lemma counted_step : forall done st freqs next k, counted done st -> next < 256 -> k <= 1 ->
  counted (done ++ [next])
    (mkA freqs (tput (a_pairs st) (pair16 (a_prev st mod 256) next) ((tval (a_pairs st) (pair16 (a_prev st mod 256) next) + k) mod two64))
         (pair16 (a_prev st mod 256) next)).
Proof.
  intros done st freqs next k ((d & ED) & B) Hn Hk. unfold counted. cbn [a_pairs a_prev]. split.
  { exists done. rewrite pair16_eq by exact Hn. f_equal. f_equal. lia. }
  intros a b Ha Hb. rewrite ED, <- app_assoc. cbn [app]. rewrite occ_snoc, <- ED. specialize (B a b Ha Hb). rewrite tval_put.
  destruct (N.eqb_spec (pair16 a b) (pair16 (a_prev st mod 256) next)) as [E|NE].
  - apply pair16_inj in E; [|assumption..]. destruct E as (Ea & Eb). rewrite <- Ea, <- Eb, !N.eqb_refl. cbn [andb].
    pose proof (N.mod_le (tval (a_pairs st) (pair16 a b) + k) two64 ltac:(unfold two64; lia)). lia.
  - lia.
Qed.
Lemma tadd_inv : forall t i v t', tadd t i v = Ok t' -> t' = tput t i ((tval t i + v) mod two64).
Proof.
  intros t i v t' H. unfold tadd, tget, tset in H. destruct (i <? t_len t); cbn [bind] in H; [|discriminate]. injection H as <-. reflexivity.
Qed.
Lemma analyse1_counted : forall done st next st', counted done st -> next < 256 -> analyse1 next st = Ok st' -> counted (done ++ [next]) st'.
Proof.
  intros done st next st' C Hn H. unfold analyse1 in H. rewrite pair16_prev in H by exact Hn.
  destruct (tadd (a_pairs st) _ _) as [p| |] eqn:E1; cbn [bind] in H; try discriminate. destruct (tadd (a_freqs st) _ _) as [f| |]; cbn [bind] in H; try discriminate.
  injection H as <-. apply tadd_inv in E1. subst p. apply counted_step; [exact C|exact Hn|lia].
Qed.
Lemma analyse0_counted : forall done st next st', counted done st -> next < 256 -> analyse0 next st = Ok st' -> counted (done ++ [next]) st'.
Proof.
  intros done st next st' C Hn H. unfold analyse0 in H. rewrite pair16_prev in H by exact Hn.
  destruct (tadd (a_freqs st) _ _) as [f| |]; cbn [bind] in H; try discriminate. destruct (tadd (a_pairs st) _ _) as [p| |] eqn:E1; cbn [bind] in H; try discriminate.
  injection H as <-. apply tadd_inv in E1. subst p. apply counted_step; [exact C|exact Hn|]. destruct (a_prev st =? pair16 (a_prev st mod 256) next); lia.
Qed.
Lemma analyseLoop_counted : forall k data done st r st', counted done st -> are_bytes data -> analyseLoop k data st = Ok (r, st') ->
  counted (done ++ firstn (2 * k) data) st' /\ r = skipn (2 * k) data.
Proof.
  induction k as [|k IH]; intros data done st r st' C B H.
  - cbn in H. injection H as <- <-. cbn. rewrite app_nil_r. auto.
  - cbn [analyseLoop] in H. destruct data as [|a [|b d]]; try discriminate. inversion_clear B as [|? ? Ba B']. inversion_clear B' as [|? ? Bb Br].
    destruct (analyse0 a st) as [s1| |] eqn:E1; cbn [bind] in H; try discriminate. destruct (analyse1 b s1) as [s2| |] eqn:E2; cbn [bind] in H; try discriminate.
    apply (analyse0_counted done) in E1; [|exact C|exact Ba]. apply (analyse1_counted _ _ _ _ E1 Bb) in E2.
    apply (IH _ _ _ _ _ E2 Br) in H. replace (2 * S k)%nat with (S (S (2 * k))) by lia. cbn [skipn firstn]. rewrite <- !app_assoc in H. exact H.
Qed.
Lemma analyseData_counted : forall g data st, are_bytes data -> N.of_nat (length data) < 2 ^ 32 -> analyseData g data = Ok st -> counted data st.
Proof.
  intros g data st B L2 H. unfold analyseData in H. destruct (N.ltb_spec 2 (N.of_nat (length data))) as [L1|]; [|discriminate].
  destruct data as [|first r]; [discriminate|]. inversion_clear B as [|? ? Bf Br].
  destruct (beginAnalysing g first) as [s0| |] eqn:E0; cbn [bind] in H; try discriminate.
  assert (C0 : counted [first] s0).
  { unfold beginAnalysing in E0. destruct (tadd _ _ _) as [f| |]; cbn [bind] in E0; try discriminate. destruct (addFreqs _ _ _) as [f'| |]; cbn [bind] in E0; try discriminate.
    injection E0 as <-. unfold counted. cbn [a_prev a_pairs]. unfold is_byte in Bf. split; [exists []; rewrite N.mod_small by exact Bf; reflexivity|].
    intros a b _ _. rewrite tval_make. lia. }
  rewrite even_mask in H by (cbn [length] in *; lia). replace (N.of_nat (length (first :: r)) - 1) with (N.of_nat (length r)) in H by (cbn [length]; lia).
  set (k := N.to_nat (N.of_nat (length r) / 2)) in H. assert (Hk : (k = length r / 2)%nat) by (unfold k; lia).
  destruct (analyseLoop k r s0) as [[r1 s1]| |] eqn:E1; cbn [bind] in H; try discriminate.
  destruct (analyseLoop_counted _ _ _ _ _ _ C0 Br E1) as (C1 & ->).
  destruct (N.even (N.of_nat (length (first :: r)))) eqn:Ev.
  - apply N.even_spec in Ev. destruct Ev as (m & Ev). cbn [length] in Ev. assert (Hlt : (2 * k < length r)%nat) by lia.
    destruct (skipn_cons_nth _ r _ Hlt) as (c & Ec & Esk). rewrite Esk in H.
    assert (Bc : c < 256) by (apply nth_error_In in Ec; unfold are_bytes in Br; rewrite Forall_forall in Br; apply Br; exact Ec).
    apply (analyse0_counted _ _ _ _ C1 Bc) in H. rewrite <- app_assoc in H. cbn [app] in H. rewrite <- (firstn_snoc _ _ _ _ Ec) in H.
    rewrite firstn_all2 in H by lia. exact H.
  - injection H as <-. rewrite firstn_all2 in C1; [exact C1|].
    assert (Od : N.odd (N.of_nat (length (first :: r))) = true) by (rewrite <- N.negb_even, Ev; reflexivity).
    apply N.odd_spec in Od. destruct Od as (m & Od). cbn [length] in Od. lia.
Qed.

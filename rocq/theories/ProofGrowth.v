(** A block that pair replacement makes larger than its memory.  The block consists of repeated pieces; its analysis and the
    length of the result are computed piece by piece. *)
From Coq Require Import List NArith ZArith Arith Bool Lia.
From Coq Require Import ZifyBool ZifyNat ZifyN.
From Verif Require Import Base TArray ModelUtils ModelStreams ModelFreq ModelGrammar ModelPairs SpecPairs SpecFreq ModelFile ProofPairs1 ProofPairs2.
Import ListNotations.
Open Scope N_scope.

Lemma doubles_bound : forall common table low src, are_bytes src ->
  forallb (fun c => existsb (N.eqb c) low || negb (writtenTwice common table c)) (map N.of_nat (seq 0 256)) = true ->
  (doubles common table src <= length (filter (fun c => existsb (N.eqb c) low) src))%nat.
Proof.
  intros common table low src HB H. rewrite forallb_forall in H. unfold doubles. induction src as [|c src IH]; [reflexivity|].
  inversion_clear HB as [|? ? C B]. specialize (IH B). unfold is_byte in C. cbn [filter].
  assert (IN : In c (map N.of_nat (seq 0 256))) by (apply in_map_iff; exists (N.to_nat c); split; [apply N2Nat.id|]; apply in_seq; lia).
  specialize (H c IN). destruct (existsb (N.eqb c) low) eqn:E1, (writtenTwice common table c) eqn:E2; cbn [length]; try lia.
Qed.

(** ** The analysis, one byte at a time *)

Fixpoint walk (z : bool) (data : list N) (st : analysis) : outcome analysis :=
  match data with
  | [] => Ok st
  | c :: r => let! st := (if z then analyse0 c st else analyse1 c st) in walk (negb z) r st
  end.

Lemma analyseLoop_walk : forall k data st, (2 * k <= length data)%nat ->
  analyseLoop k data st = let! st := walk true (firstn (2 * k) data) st in Ok (skipn (2 * k) data, st).
Proof.
  induction k as [|k IH]; intros data st H; [destruct data; reflexivity|].
  destruct data as [|a [|b r]]; [cbn in H; lia|cbn in H; lia|]. replace (2 * S k)%nat with (S (S (2 * k))) by lia. cbn [analyseLoop firstn skipn walk negb].
  destruct (analyse0 a st) as [st1| |]; [|reflexivity|reflexivity]. cbn [bind]. destruct (analyse1 b st1) as [st2| |]; [|reflexivity|reflexivity]. cbn [bind].
  apply IH. cbn [length] in H. lia.
Qed.

Lemma walk_app : forall a b z st, walk z (a ++ b) st = let! st := walk z a st in walk (xorb z (Nat.odd (length a))) b st.
Proof.
  induction a as [|c a IH]; intros b z st; [cbn; rewrite xorb_false_r; reflexivity|]. cbn [app walk length].
  destruct (if z then analyse0 c st else analyse1 c st) as [st1| |]; [|reflexivity|reflexivity]. cbn [bind]. rewrite IH. rewrite Nat.odd_succ, <- Nat.negb_odd. destruct z, (Nat.odd (length a)); reflexivity.
Qed.

Lemma analyseData_walk : forall g first r, (2 <= length r)%nat -> N.of_nat (length r) < 2 ^ 31 ->
  analyseData g (first :: r) = let! st := beginAnalysing g first in walk true r st.
Proof.
  intros g first r L1 L2. change (2 ^ 31) with 2147483648 in L2. unfold analyseData. cbn [length].
  destruct (N.ltb_spec 2 (N.of_nat (S (length r)))); [|lia]. destruct (beginAnalysing g first) as [st| |]; [|reflexivity|reflexivity]. cbn [bind].
  rewrite even_mask by lia. replace (N.to_nat ((N.of_nat (S (length r)) - 1) / 2)) with (length r / 2)%nat by lia.
  rewrite analyseLoop_walk by lia. set (m := (2 * (length r / 2))%nat). assert (Hm : m = (2 * (length r / 2))%nat) by reflexivity.
  replace (walk true r st) with (walk true (firstn m r ++ skipn m r) st) by (rewrite firstn_skipn; reflexivity). rewrite walk_app. destruct (walk true (firstn m r) st) as [st1| |]; [|reflexivity|reflexivity]. cbn [bind].
  rewrite firstn_length_le by lia. replace (Nat.odd m) with false by (unfold m; rewrite Nat.odd_mul; reflexivity). cbn [xorb]. clearbody m.
  destruct (N.even (N.of_nat (S (length r)))) eqn:Ev.
  - apply N.even_spec in Ev. destruct Ev as (x & Ev). destruct (skipn m r) as [|c q] eqn:Es; [apply (f_equal (@length N)) in Es; rewrite skipn_length in Es; cbn [length] in Es; lia|].
    destruct q; [|apply (f_equal (@length N)) in Es; rewrite skipn_length in Es; cbn [length] in Es; lia]. cbn [walk negb]. destruct (analyse0 c st1); reflexivity.
  - destruct (skipn m r) as [|c q] eqn:Es; [reflexivity|]. exfalso. apply (f_equal (@length N)) in Es. rewrite skipn_length in Es. cbn [length] in Es.
    assert (N.even (N.of_nat (S (length r))) = true); [apply N.even_spec; exists (N.of_nat (length r / 2 + 1)); lia|congruence].
Qed.

(** The pairs counted and by how much. *)
Fixpoint counted (z : bool) (prev : N) (data : list N) : list (N * N) :=
  match data with
  | [] => []
  | c :: r => let p := pair16 prev c mod 65536 in (p, if z && (prev =? p) then 0 else 1) :: counted (negb z) p r
  end.
Fixpoint walkEnd (z : bool) (prev : N) (data : list N) : bool * N :=
  match data with
  | [] => (z, prev)
  | c :: r => walkEnd (negb z) (pair16 prev c mod 65536) r
  end.
Definition amount (i : N) (l : list (N * N)) : N := fold_right (fun q a => (if fst q =? i then snd q else 0) + a) 0 l.
Definition ones (l : list N) : list (N * N) := map (fun c => (c, 1)) l.

Lemma amount_app : forall i a b, amount i (a ++ b) = amount i a + amount i b.
Proof. intros i a b. unfold amount. induction a as [|x a IH]; [reflexivity|]. cbn [app fold_right]. rewrite IH. lia. Qed.

Lemma mod_step : forall x a b, ((x + a) mod two64 + b) mod two64 = (x + (a + b)) mod two64.
Proof. intros. rewrite N.add_mod_idemp_l by discriminate. f_equal. lia. Qed.

Lemma walk_counts : forall data z st, are_bytes data -> t_len (a_pairs st) = 65536 -> t_len (a_freqs st) = 256 ->
  (forall i, tval (a_pairs st) i < two64) -> (forall i, tval (a_freqs st) i < two64) ->
  exists st', walk z data st = Ok st' /\
    (forall i, tval (a_pairs st') i = (tval (a_pairs st) i + amount i (counted z (a_prev st) data)) mod two64) /\
    (forall i, tval (a_freqs st') i = (tval (a_freqs st) i + amount i (ones data)) mod two64).
Proof.
  induction data as [|c r IH]; intros z st HB L1 L2 S1 S2.
  - exists st. cbn. split; [reflexivity|]. split; intros i; rewrite N.add_0_r, N.mod_small by auto; reflexivity.
  - inversion_clear HB as [|? ? C B]. unfold is_byte in C. set (p := pair16 (a_prev st) c mod 65536). assert (P : p < 65536) by (apply N.mod_lt; discriminate).
    set (v := if z && (a_prev st =? p) then 0 else 1).
    set (st1 := mkA (tput (a_freqs st) c ((tval (a_freqs st) c + 1) mod two64)) (tput (a_pairs st) p ((tval (a_pairs st) p + v) mod two64)) p).
    assert (E : (if z then analyse0 c st else analyse1 c st) = Ok st1).
    { unfold analyse0, analyse1. destruct z; fold p.
      - rewrite tadd_ok by lia. cbn [bind]. rewrite tadd_ok by lia. cbn [bind]. reflexivity.
      - rewrite tadd_ok by lia. cbn [bind]. rewrite tadd_ok by lia. cbn [bind]. reflexivity. }
    destruct (IH (negb z) st1 B) as (st' & E' & V1 & V2).
    + exact L1.
    + exact L2.
    + intros i. cbn [a_pairs st1]. rewrite tval_put. destruct (i =? p); [apply N.mod_lt; discriminate|apply S1].
    + intros i. cbn [a_freqs st1]. rewrite tval_put. destruct (i =? c); [apply N.mod_lt; discriminate|apply S2].
    + exists st'. cbn [walk]. rewrite E. cbn [bind]. split; [exact E'|]. split.
      * intros i. rewrite V1. cbn [a_pairs a_prev st1 counted]. fold p. fold v. rewrite tval_put. unfold amount at 2. cbn [fold_right fst snd]. fold (amount i (counted (negb z) p r)).
        rewrite (N.eqb_sym i p). destruct (N.eqb_spec p i) as [->|_]; [apply mod_step|reflexivity].
      * intros i. rewrite V2. cbn [a_freqs st1]. rewrite tval_put. unfold ones, amount at 2. cbn [map fold_right fst snd]. fold (ones r). fold (amount i (ones r)).
        rewrite (N.eqb_sym i c). destruct (N.eqb_spec c i) as [->|_]; [apply mod_step|reflexivity].
Qed.

(** ** Pieces: each with the number of its repetitions *)

Definition flat (P : list (nat * list N)) : list N := flat_map (fun q => concat (repeat (snd q) (fst q))) P.

Fixpoint total (i : N) (W : list (N * list (N * N))) : N :=
  match W with
  | [] => 0
  | (w, l) :: W => w * amount i l + total i W
  end.

Fixpoint addList (w : N) (l : list (N * N)) (t : tarray N) : tarray N :=
  match l with
  | [] => t
  | (p, v) :: l => addList w l (tput t p ((tval t p + w * v) mod two64))
  end.
Fixpoint addAll (W : list (N * list (N * N))) (t : tarray N) : tarray N :=
  match W with
  | [] => t
  | (w, l) :: W => addAll W (addList w l t)
  end.

Lemma addList_len : forall l w t, t_len (addList w l t) = t_len t.
Proof. induction l as [|(p, v) l IH]; intros w t; [reflexivity|]. cbn [addList]. rewrite IH. reflexivity. Qed.
Lemma addList_small : forall l w t, (forall i, tval t i < two64) -> forall i, tval (addList w l t) i < two64.
Proof. induction l as [|(p, v) l IH]; intros w t H i; [apply H|]. cbn [addList]. apply IH. intros j. rewrite tval_put. destruct (j =? p); [apply N.mod_lt; discriminate|apply H]. Qed.
Lemma addList_val : forall l w t, (forall i, tval t i < two64) -> forall i, tval (addList w l t) i = (tval t i + w * amount i l) mod two64.
Proof.
  induction l as [|(p, v) l IH]; intros w t H i; [unfold amount; cbn [addList fold_right]; rewrite N.mul_0_r, N.add_0_r, N.mod_small by apply H; reflexivity|].
  cbn [addList]. rewrite IH by (intros j; rewrite tval_put; destruct (j =? p); [apply N.mod_lt; discriminate|apply H]).
  rewrite tval_put. unfold amount at 2. cbn [fold_right fst snd]. fold (amount i l). rewrite (N.eqb_sym i p).
  destruct (N.eqb_spec p i) as [->|_]; [rewrite mod_step, N.mul_add_distr_l; reflexivity|reflexivity].
Qed.
Lemma addAll_val : forall W t, (forall i, tval t i < two64) -> forall i, tval (addAll W t) i = (tval t i + total i W) mod two64.
Proof.
  induction W as [|(w, l) W IH]; intros t H i; [cbn [addAll total]; rewrite N.add_0_r, N.mod_small by apply H; reflexivity|].
  cbn [addAll total]. rewrite IH by (apply addList_small, H). rewrite addList_val by exact H. apply mod_step.
Qed.

Fixpoint countPieces (z : bool) (prev : N) (P : list (nat * list N)) : option (list (N * list (N * N))) :=
  match P with
  | [] => Some []
  | (n, B) :: P =>
    let (z', p') := walkEnd z prev B in
    if (n =? 1)%nat || (eqb z z' && (prev =? p')) then
      match countPieces z' p' P with Some W => Some ((N.of_nat n, counted z prev B) :: W) | None => None end
    else None
  end.

Lemma counted_app : forall a b z prev, counted z prev (a ++ b) = counted z prev a ++ counted (fst (walkEnd z prev a)) (snd (walkEnd z prev a)) b.
Proof. induction a as [|c a IH]; intros b z prev; [reflexivity|]. cbn [app counted walkEnd]. rewrite IH. reflexivity. Qed.
Lemma walkEnd_app : forall a b z prev, walkEnd z prev (a ++ b) = walkEnd (fst (walkEnd z prev a)) (snd (walkEnd z prev a)) b.
Proof. induction a as [|c a IH]; intros b z prev; [reflexivity|]. cbn [app walkEnd]. apply IH. Qed.

Lemma counted_repeat : forall B z prev, walkEnd z prev B = (z, prev) -> forall n i,
  amount i (counted z prev (concat (repeat B n))) = N.of_nat n * amount i (counted z prev B) /\ walkEnd z prev (concat (repeat B n)) = (z, prev).
Proof.
  intros B z prev E. induction n as [|n IH]; intros i; [split; reflexivity|]. cbn [repeat concat].
  rewrite counted_app, walkEnd_app, E, amount_app. cbn [fst snd]. destruct (IH i) as (A & ->). rewrite A. split; [lia|reflexivity].
Qed.

Lemma countPieces_total : forall P z prev W, countPieces z prev P = Some W -> forall i, amount i (counted z prev (flat P)) = total i W.
Proof.
  induction P as [|(n, B) P IH]; intros z prev W H i; [injection H as <-; reflexivity|]. cbn [countPieces] in H.
  destruct (walkEnd z prev B) as (z', p') eqn:E. destruct ((n =? 1)%nat || (eqb z z' && (prev =? p'))) eqn:C; [|discriminate].
  destruct (countPieces z' p' P) as [W'|] eqn:E1; [|discriminate]. injection H as <-. cbn [total]. rewrite <- (IH z' p' W' E1).
  cbn [flat flat_map fst snd]. fold (flat P). rewrite counted_app, amount_app.
  apply orb_prop in C. destruct C as [C|C].
  - apply Nat.eqb_eq in C. subst n. cbn [repeat concat]. rewrite app_nil_r, E. cbn [fst snd]. lia.
  - apply andb_prop in C. destruct C as (C1 & C2). apply eqb_prop in C1. apply N.eqb_eq in C2. subst z' p'.
    destruct (counted_repeat B z prev E n i) as (-> & ->). reflexivity.
Qed.

Definition onePieces (P : list (nat * list N)) : list (N * list (N * N)) := map (fun q => (N.of_nat (fst q), ones (snd q))) P.
Lemma onePieces_total : forall P i, amount i (ones (flat P)) = total i (onePieces P).
Proof.
  induction P as [|(n, B) P IH]; intros i; [reflexivity|]. cbn [flat flat_map onePieces map total fst snd]. fold (flat P). fold (onePieces P). unfold ones in *. rewrite map_app, amount_app, IH. f_equal.
  clear. induction n as [|n IH]; [reflexivity|]. cbn [repeat concat]. rewrite map_app, amount_app, IH. lia.
Qed.

(** ** The choice depends on the counts only *)

Lemma ttake_ext : forall k (t u : tarray N) i, (forall j, tval t j = tval u j) -> ttake t i k = ttake u i k.
Proof. induction k as [|k IH]; intros t u i H; [reflexivity|]. cbn [ttake]. rewrite H, (IH t u _ H). reflexivity. Qed.
Lemma pairsFrom_ext : forall k (t u : tarray N) i, (forall j, tval t j = tval u j) -> pairsFrom t i k = pairsFrom u i k.
Proof. induction k as [|k IH]; intros t u i H; [reflexivity|]. cbn [pairsFrom]. rewrite H, (IH t u _ H). reflexivity. Qed.
Lemma decide_ext : forall sortF over g st st', (forall j, tval (a_freqs st) j = tval (a_freqs st') j) -> (forall j, tval (a_pairs st) j = tval (a_pairs st') j) ->
  decideReplacements sortF over g st = decideReplacements sortF over g st'.
Proof.
  intros sortF over g st st' H1 H2. unfold decideReplacements, makePairList. rewrite (ttake_ext 256 _ _ 0 H1). rewrite (pairsFrom_ext (256 * 256) _ _ 0 H2). reflexivity.
Qed.

Definition piecesState (first : N) (P : list (nat * list N)) : option analysis :=
  match countPieces true first P with
  | Some W => Some (mkA (addAll ((1, [(first, 1)]) :: onePieces P) (tmake 256 0)) (addAll W (tmake 65536 0)) 0)
  | None => None
  end.

Lemma addFreqs_zero : forall k i t, i + N.of_nat k <= t_len t -> (forall j, tval t j < two64) ->
  exists t', addFreqs i (repeat 0 k) t = Ok t' /\ t_len t' = t_len t /\ (forall j, tval t' j = tval t j).
Proof.
  induction k as [|k IH]; intros i t H S; [exists t; auto|]. cbn [repeat addFreqs]. rewrite tadd_ok by lia. cbn [bind].
  destruct (IH (i + 1) (tput t i ((tval t i + 0) mod two64))) as (t' & E & L & V); [cbn; lia| |].
  - intros j. rewrite tval_put. destruct (j =? i); [apply N.mod_lt; discriminate|apply S].
  - exists t'. split; [exact E|]. split; [exact L|]. intros j. rewrite V, tval_put, N.add_0_r, N.mod_small by apply S. destruct (N.eqb_spec j i) as [->|_]; reflexivity.
Qed.

Lemma piecesState_ok : forall sortF over first P st, first < 256 -> are_bytes (flat P) -> (2 <= length (flat P))%nat -> N.of_nat (length (flat P)) < 2 ^ 31 ->
  piecesState first P = Some st ->
  analyseAndDecide sortF over emptyGrammar (first :: flat P) = decideReplacements sortF over emptyGrammar st.
Proof.
  intros sortF over first P st HF HB L1 L2. unfold piecesState, analyseAndDecide. rewrite analyseData_walk by assumption.
  destruct (countPieces true first P) as [W|] eqn:EW; [|discriminate]. intros H. injection H as <-.
  unfold beginAnalysing. rewrite tadd_ok by exact HF. cbn [bind].
  change (g_freqs emptyGrammar) with (repeat 0 256).
  set (t0 := tput (tmake 256 0) first ((tval (tmake 256 0) first + 1) mod two64)).
  assert (S0 : forall j, tval t0 j < two64) by (intros j; unfold t0; rewrite tval_put; destruct (j =? first); [apply N.mod_lt; discriminate|rewrite tval_make; reflexivity]).
  destruct (addFreqs_zero 256 0 t0) as (t' & E & L & V); [cbn; lia|exact S0|]. rewrite E. cbn [bind].
  destruct (walk_counts (flat P) true (mkA t' (tmake 65536 0) first) HB) as (st & E1 & V1 & V2).
  { reflexivity. } { exact L. } { intros j. cbn [a_pairs]. rewrite tval_make. reflexivity. } { intros j. cbn [a_freqs]. rewrite V. apply S0. }
  rewrite E1. cbn [bind]. cbn [a_pairs a_freqs a_prev] in V1, V2. apply decide_ext; cbn [a_freqs a_pairs]; intros j.
  - rewrite V2, V, onePieces_total. change (addAll ((1, [(first, 1)]) :: onePieces P) (tmake 256 0)) with (addAll (onePieces P) (addList 1 [(first, 1)] (tmake 256 0))).
    rewrite addAll_val by exact S0. reflexivity.
  - rewrite V1, addAll_val by (intros i; rewrite tval_make; reflexivity). rewrite (countPieces_total P true first W EW). reflexivity.
Qed.

(** ** The length of the result *)

(** State: the symbol not yet written; number of bytes written. *)
Section Emit.
Variables (common : N) (table : tarray N).
Fixpoint emits (s : option N) (data : list N) : option N * N :=
  match data with
  | [] => (s, 0)
  | c :: r =>
    match s with
    | None => emits (Some c) r
    | Some p =>
      let v := tval table (pair16 p c) in
      if v =? pair16 common common then let (s, k) := emits (Some c) r in (s, 1 + k)
      else if lo16 v =? common then let (s, k) := emits None r in (s, 1 + k)
      else let (s, k) := emits (Some c) r in (s, 2 + k)
    end
  end.
Definition emitEnd (s : option N) : N :=
  match s with
  | None => 0
  | Some c => if lo16 (tval table (pair16 c 0)) =? common then 1 else 2
  end.

Lemma replaceLoop_emits : t_len table = 65536 -> forall m src prev, (length src <= m)%nat -> src <> [] -> prev < 256 -> are_bytes src ->
  exists l, replaceLoop common table prev src = Ok l /\ N.of_nat (length l) = snd (emits (Some prev) src) + emitEnd (fst (emits (Some prev) src)).
Proof.
  intros LT.
  assert (G : forall a b, a < 256 -> b < 256 -> tget table (pair16 a b) = Ok (tval table (pair16 a b))).
  { intros a b Ha Hb. apply tget_ok. rewrite LT. apply pair16_lt; assumption. }
  assert (F : forall c, c < 256 -> exists l, (let! v := tget table (pair16 c 0) in Ok (if lo16 v =? common then [c] else [hi16 v; lo16 v])) = Ok l /\ N.of_nat (length l) = emitEnd (Some c)).
  { intros c Hc. rewrite G by (assumption || reflexivity). cbn [bind emitEnd]. destruct (lo16 (tval table (pair16 c 0)) =? common); eexists; split; reflexivity. }
  induction m as [|m IH]; intros src prev L NE HP HB; [destruct src; [congruence|cbn in L; lia]|].
  destruct src as [|c rest]; [congruence|]. inversion_clear HB as [|? ? C B]. unfold is_byte in C. cbn [length] in L.
  assert (T : exists l, (match rest with [] => let! v := tget table (pair16 c 0) in Ok (if lo16 v =? common then [c] else [hi16 v; lo16 v]) | _ => replaceLoop common table c rest end) = Ok l /\
    N.of_nat (length l) = snd (emits (Some c) rest) + emitEnd (fst (emits (Some c) rest))).
  { destruct rest as [|d rest']; [exact (F c C)|]. apply IH; [lia|discriminate|exact C|exact B]. }
  cbn [replaceLoop emits]. rewrite G by assumption. cbn [bind]. set (v := tval table (pair16 prev c)).
  destruct (v =? pair16 common common).
  - destruct T as (l & E & EL). rewrite E. cbn [bind]. eexists; split; [reflexivity|]. cbn [length]. destruct (emits (Some c) rest) as (s, k). cbn [fst snd] in *. lia.
  - destruct (lo16 v =? common).
    + destruct rest as [|d rest']; [eexists; split; reflexivity|]. inversion_clear B as [|? ? D B']. unfold is_byte in D. cbn [emits].
      assert (T2 : exists l, (match rest' with [] => let! v := tget table (pair16 d 0) in Ok (if lo16 v =? common then [d] else [hi16 v; lo16 v]) | _ => replaceLoop common table d rest' end) = Ok l /\
        N.of_nat (length l) = snd (emits (Some d) rest') + emitEnd (fst (emits (Some d) rest'))).
      { destruct rest' as [|e rest'']; [exact (F d D)|]. cbn [length] in L. apply IH; [cbn [length]; lia|discriminate|exact D|exact B']. }
      destruct T2 as (l & E & EL). exists (hi16 v :: l). split.
      * destruct rest' as [|e rest'']; rewrite E; reflexivity.
      * cbn [length]. destruct (emits (Some d) rest') as (s, k). cbn [fst snd] in *. lia.
    + destruct T as (l & E & EL). rewrite E. cbn [bind]. eexists; split; [reflexivity|]. cbn [length]. destruct (emits (Some c) rest) as (s, k). cbn [fst snd] in *. lia.
Qed.

Lemma emits_app : forall a b s, emits s (a ++ b) = (fst (emits (fst (emits s a)) b), snd (emits s a) + snd (emits (fst (emits s a)) b)).
Proof.
  induction a as [|c a IH]; intros b s; [cbn [app emits fst snd]; rewrite N.add_0_l, <- surjective_pairing; reflexivity|].
  cbn [app emits]. destruct s as [p|]; [|apply IH].
  destruct (tval table (pair16 p c) =? pair16 common common); [|destruct (lo16 (tval table (pair16 p c)) =? common)]; rewrite IH;
  match goal with |- context [emits ?s a] => destruct (emits s a) as (s', k) end; cbn [fst snd]; rewrite N.add_assoc; reflexivity.
Qed.

Definition same (s t : option N) : bool := match s, t with None, None => true | Some a, Some b => a =? b | _, _ => false end.
Lemma same_eq : forall s t, same s t = true -> s = t.
Proof. intros [a|] [b|] H; try discriminate; [apply N.eqb_eq in H; subst|]; reflexivity. Qed.

Fixpoint emitPieces (s : option N) (P : list (nat * list N)) : option (option N * N) :=
  match P with
  | [] => Some (s, 0)
  | (n, B) :: P =>
    let (s', k) := emits s B in
    if (n =? 1)%nat || same s s' then
      match emitPieces s' P with Some (s'', k') => Some (s'', N.of_nat n * k + k') | None => None end
    else None
  end.

Lemma emits_repeat : forall B s k, emits s B = (s, k) -> forall n, emits s (concat (repeat B n)) = (s, N.of_nat n * k).
Proof. intros B s k E. induction n as [|n IH]; [reflexivity|]. cbn [repeat concat]. rewrite emits_app, E. cbn [fst snd]. rewrite IH. cbn [fst snd]. f_equal. lia. Qed.

Lemma emitPieces_ok : forall P s r, emitPieces s P = Some r -> emits s (flat P) = r.
Proof.
  induction P as [|(n, B) P IH]; intros s r H; [injection H as <-; reflexivity|]. cbn [emitPieces] in H. destruct (emits s B) as (s', k) eqn:E.
  destruct ((n =? 1)%nat || same s s') eqn:C; [|discriminate]. destruct (emitPieces s' P) as [(s'', k')|] eqn:E1; [|discriminate]. injection H as <-.
  cbn [flat flat_map fst snd]. fold (flat P). apply IH in E1.
  assert (E2 : emits s (concat (repeat B n)) = (s', N.of_nat n * k)).
  { apply orb_prop in C. destruct C as [C|C].
    - apply Nat.eqb_eq in C. subst n. cbn [repeat concat]. rewrite app_nil_r, E. f_equal. lia.
    - apply same_eq in C. subst s'. apply emits_repeat, E. }
  rewrite emits_app, E2. cbn [fst snd]. rewrite E1. reflexivity.
Qed.
End Emit.

(** ** The conditions under which a round written in place gives more bytes than there is room for *)

Definition outgrows (sortF : list (N * N) -> list (N * N)) (low : list N) (first : N) (P : list (nat * list N)) : bool :=
  match piecesState first P with
  | None => false
  | Some st =>
    match decideReplacements sortF layoutOver emptyGrammar st with
    | Ok (g, common, table) =>
      let data := first :: flat P in
      let cap := bufferCapacity (length data) in
      (t_len table =? 65536) && (common <? 256) && (3 <=? length data)%nat && (N.of_nat (length data) <? 2 ^ 31) && forallb (fun c => c <? 256) data &&
      forallb (fun c => existsb (N.eqb c) low || negb (writtenTwice common table c)) (map N.of_nat (seq 0 256)) &&
      (length (filter (fun c => existsb (N.eqb c) low) data) + 2 <=? cap)%nat && (cap + 1 <? length data)%nat &&
      negb (writtenTwice common table (last data 0)) &&
      match emitPieces common table (Some first) P with
      | Some (s, k) => N.of_nat (S (length data)) <? k + emitEnd common table s
      | None => false
      end
    | _ => false
    end
  end.

Lemma last_nth : forall (l : list N) d, last l d = nth (length l - 1) l d.
Proof.
  induction l as [|x l IH]; intros d; [reflexivity|]. destruct l as [|y l]; [reflexivity|]. change (last (x :: y :: l) d) with (last (y :: l) d). rewrite IH. cbn [length nth Nat.sub]. rewrite Nat.sub_0_r. reflexivity.
Qed.

Lemma outgrows_undefined : forall sortF lowRatio low first P n, outgrows sortF low first P = true ->
  lowRatio (length (first :: flat P)) (length (first :: flat P)) = false ->
  precompress sortF layoutOver bufferCapacity lowRatio (S n) (first :: flat P) = UB.
Proof.
  intros sortF lowRatio low first P n. unfold outgrows. destruct (piecesState first P) as [st|] eqn:ES; [|discriminate].
  destruct (decideReplacements sortF layoutOver emptyGrammar st) as [[[g common] table]| |] eqn:ED; try discriminate. cbv zeta.
  intros H R. rewrite !andb_true_iff in H. destruct H as (((((((((H1 & H2) & H3) & H4) & HB) & H5) & H6) & H7) & H8) & H9).
  assert (B : are_bytes (first :: flat P)).
  { apply Forall_forall. intros x Hx. rewrite forallb_forall in HB. unfold is_byte. specialize (HB x Hx). lia. }
  assert (BF : first < 256) by (inversion_clear B as [|? ? C D]; exact C). assert (BP : are_bytes (flat P)) by (inversion_clear B as [|? ? C D]; exact D).
  assert (EA : analyseAndDecide sortF layoutOver emptyGrammar (first :: flat P) = Ok (g, common, table)).
  { rewrite (piecesState_ok sortF layoutOver first P st); try assumption; cbn [length] in H3, H4; lia. }
  unfold precompress. cbn [precompressRounds]. rewrite R, EA. cbn [bind]. set (cap := bufferCapacity (length (first :: flat P))) in *. clearbody cap.
  apply (doubles_bound common table low _ B) in H5. rewrite last_nth in H8.
  destruct (C34_all cap common table (S (length (first :: flat P))) (first :: flat P)) as (_ & E); try lia; [exact B|]. rewrite E by (destruct (writtenTwice _ _ _); [discriminate|reflexivity]).
  unfold writeReplaced. destruct (replaceLoop_emits common table ltac:(lia) (length (flat P)) (flat P) first) as (l & El & LL); try assumption; [reflexivity|destruct (flat P); [cbn in H3; lia|discriminate]|].
  rewrite El. cbn [bind]. destruct (emitPieces common table (Some first) P) as [(s, k)|] eqn:EP; [|discriminate]. apply emitPieces_ok in EP. rewrite EP in LL. cbn [fst snd] in LL.
  destruct (Nat.leb_spec (length l) (S (length (first :: flat P)))); [lia|]. reflexivity.
Qed.

(** 670 times "111x" and "222x", the other bytes 333 times and four bytes 336 times each. *)
Definition others : list N := map N.of_nat (0%nat :: seq 7 249).
Definition triples (c : N) (l : list N) : list N := flat_map (fun x => [c; c; c; x]) l.
Definition growingPieces : list (nat * list N) :=
  [(1, tl (triples 1%N others)); (1, triples 1%N (others ++ firstn 170 others)); (1, triples 2%N (others ++ others ++ firstn 170 others));
   (1, [3; 4; 5; 6]%N); (335, [3; 4; 5; 6]%N); (1, others); (332, others)]%nat.
Definition growingBlock : list N := 1 :: flat growingPieces.

Lemma undefined_file : forall coder sorter points prec pbSize bwtSize quotient c input, N.of_nat (length input) <= pbSize -> input <> [] -> prec input = UB ->
  compress coder sorter points prec pbSize bwtSize quotient true c input = UB.
Proof.
  intros coder sorter points prec pbSize bwtSize quotient c input H N U. unfold compress. cbn [compressLoop]. rewrite firstn_all2 by lia.
  destruct input as [|b block]; [congruence|]. rewrite U. reflexivity.
Qed.

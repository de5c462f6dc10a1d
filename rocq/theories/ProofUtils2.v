(** Bounded binary code and binary interpolative code: lemmas. *)
From Coq Require Import List NArith ZArith Lia Arith Bool Sorted.
From Coq Require Import ZifyBool ZifyNat ZifyN.
From Verif Require Import Base ModelUtils ProofUtils1.
Import ListNotations.
Open Scope N_scope.

Ltac Zify.zify_post_hook ::= Z.div_mod_to_equations.

Lemma pushBits_be : forall bits n, pushBits n bits = be_bits bits n.
Proof.
  intros bits n. unfold pushBits.
  assert (G : forall k a, map (fun i => N.odd (N.shiftr n (N.of_nat (a + k - i)))) (seq (S a) k)
              = be_bits k n).
  { induction k as [|k IH]; intros a; auto.
    cbn [seq map be_bits]. f_equal.
    - rewrite <- N.bit0_odd, N.shiftr_spec by lia. f_equal. lia.
    - rewrite <- (IH (S a)). apply map_ext. intros i. do 3 f_equal. lia. }
  exact (G bits 0%nat).
Qed.

Lemma readInto_spec : forall bs acc rest,
  readInto (length bs) acc (bs ++ rest) = (be_val_acc acc bs, rest).
Proof.
  induction bs as [|b bs IH]; intros acc rest; auto.
  cbn [length readInto app readBit].
  replace (N.lor (N.shiftl acc 1) (N.b2n b)) with (2 * acc + N.b2n b).
  - rewrite IH. reflexivity.
  - rewrite N.lor_comm, lor_add; [change (2 ^ 1) with 2; lia|].
    destruct b; simpl; lia.
Qed.

Lemma readInto_be : forall w n rest, n < 2 ^ N.of_nat w ->
  readInto w 0 (be_bits w n ++ rest) = (n, rest).
Proof.
  intros w n rest Hn.
  pose proof (readInto_spec (be_bits w n) 0 rest) as H. rewrite be_bits_length in H.
  rewrite H. f_equal. apply (be_bits_val w n Hn).
Qed.

(** The last bit split off. *)
Lemma be_bits_snoc : forall w n, be_bits (S w) n = be_bits w (n / 2) ++ [N.odd n].
Proof.
  induction w as [|w IH]; intros n.
  - cbn [be_bits app]. f_equal. change (N.of_nat 0) with 0. apply N.bit0_odd.
  - change (be_bits (S (S w)) n) with (N.testbit n (N.of_nat (S w)) :: be_bits (S w) n).
    rewrite IH. cbn [be_bits app]. f_equal.
    rewrite Nat2N.inj_succ. rewrite <- N.div2_div, N.div2_spec, N.shiftr_spec by lia.
    f_equal. lia.
Qed.

Lemma binaryParams_spec : forall R, 2 <= R -> R <= 2 ^ 30 ->
  binaryParams R = Ok (N.log2_up R, 2 ^ N.log2_up R - R, R - 2 ^ (N.log2_up R - 1)).
Proof.
  intros R H2 HR. unfold binaryParams.
  rewrite logCeiling_spec by lia. cbn [bind].
  assert (L : N.log2_up R <= 30) by (apply N.log2_up_le_pow2; lia).
  assert (L1 : 1 <= N.log2_up R).
  { change 1 with (N.log2_up 2). apply N.log2_up_le_mono. assumption. }
  unfold intShl1. destruct (N.leb_spec (N.log2_up R) 30); [|lia]. cbn [bind].
  pose proof (N.log2_up_spec R ltac:(lia)) as [B1 B2].
  assert (E : 2 ^ N.log2_up R = 2 * 2 ^ (N.log2_up R - 1)).
  { rewrite <- N.pow_succ_r'. f_equal. lia. }
  assert (P : 2 ^ N.log2_up R <= 2 ^ 30) by (apply N.pow_le_mono_r; lia).
  replace (N.pred (N.log2_up R)) with (N.log2_up R - 1) in B1 by lia.
  assert (S1 : (2 ^ N.log2_up R + two64 - R) mod two64 = 2 ^ N.log2_up R - R).
  { unfold two64 in *. replace (2 ^ N.log2_up R + 2 ^ 64 - R) with (2 ^ N.log2_up R - R + 1 * 2 ^ 64) by lia.
    rewrite N.mod_add by lia. apply N.mod_small. lia. }
  rewrite S1.
  assert (S2 : (R + two64 - (2 ^ N.log2_up R - R)) mod two64 = 2 * (R - 2 ^ (N.log2_up R - 1))).
  { unfold two64 in *. rewrite E.
    replace (R + 2 ^ 64 - (2 * 2 ^ (N.log2_up R - 1) - R))
      with (2 * (R - 2 ^ (N.log2_up R - 1)) + 1 * 2 ^ 64) by lia.
    rewrite N.mod_add by lia. apply N.mod_small. lia. }
  rewrite S2. oklia.
Qed.

Lemma sub64 : forall a b, b <= a -> a < two64 -> (a + two64 - b) mod two64 = a - b.
Proof.
  intros a b H1 H2. unfold two64 in *.
  replace (a + 2 ^ 64 - b) with (a - b + 1 * 2 ^ 64) by lia.
  rewrite N.mod_add by lia. apply N.mod_small. lia.
Qed.

Lemma range64 : forall lo hi, lo <= hi -> hi < 2 ^ 63 ->
  (hi + two64 - lo + 1) mod two64 = hi - lo + 1.
Proof.
  intros lo hi H1 H2. unfold two64 in *.
  replace (hi + 2 ^ 64 - lo + 1) with (hi - lo + 1 + 1 * 2 ^ 64) by lia.
  rewrite N.mod_add by lia. apply N.mod_small. lia.
Qed.

Lemma odd_b2n : forall n, n = 2 * (n / 2) + N.b2n (N.odd n).
Proof.
  intros. rewrite <- N.bit0_odd, N.bit0_mod. apply N.div_mod. lia.
Qed.

Lemma binary_spec : forall lo hi n, lo <= n <= hi -> hi < 2 ^ 63 -> hi - lo + 1 <= 2 ^ 30 ->
  exists bits, binaryCode n lo hi = Ok bits /\
    N.log2 (hi - lo + 1) <= N.of_nat (length bits) <= N.log2_up (hi - lo + 1) /\
    forall rest, binaryDecode (bits ++ rest) lo hi = Ok (n, length bits, rest).
Proof.
  intros lo hi n Hn Hhi HR. unfold binaryCode, binaryDecode.
  rewrite range64 by lia.
  set (R := hi - lo + 1) in *.
  destruct (N.eqb_spec R 1) as [E1|NE].
  { exists []. split; [reflexivity|]. rewrite E1. split; [simpl; lia|].
    intros rest. simpl. oklia. }
  rewrite binaryParams_spec by lia. cbn [bind].
  rewrite sub64 by (unfold two64; lia).
  pose proof (N.log2_up_spec R ltac:(lia)) as [B1 B2].
  pose proof (N.log2_spec R ltac:(lia)) as [B3 B4].
  assert (L1 : 1 <= N.log2_up R).
  { change 1 with (N.log2_up 2). apply N.log2_up_le_mono. lia. }
  replace (N.pred (N.log2_up R)) with (N.log2_up R - 1) in B1 by lia.
  set (C := N.log2_up R) in *.
  assert (LF : C - 1 <= N.log2 R <= C).
  { unfold C. pose proof (N.le_log2_log2_up R). pose proof (N.le_log2_up_succ_log2 R). lia. }
  assert (E : 2 ^ C = 2 * 2 ^ (C - 1)) by (rewrite <- N.pow_succ_r'; f_equal; lia).
  assert (EC : N.to_nat C = S (N.to_nat C - 1)) by lia.
  assert (OF : N.of_nat (N.to_nat C - 1) = C - 1) by lia.
  set (d := n - lo) in *.
  assert (Hd : d < R) by lia.
  assert (P30 : 2 ^ C <= 2 ^ 30).
  { apply N.pow_le_mono_r; [lia|]. apply N.log2_up_le_pow2; lia. }
  assert (Dec : forall e rest, e < 2 ^ C -> e / 2 < R - 2 ^ (C - 1) ->
     readInto (N.to_nat C - 1) 0 (be_bits (N.to_nat C) e ++ rest) = (e / 2, N.odd e :: rest)).
  { intros e rest He1 He2. rewrite EC. rewrite be_bits_snoc, <- app_assoc.
    replace (S (N.to_nat C - 1) - 1)%nat with (N.to_nat C - 1)%nat by lia.
    rewrite readInto_be by (rewrite OF; lia). reflexivity. }
  assert (Lor : forall e, N.lor (N.shiftl (e / 2) 1) (N.b2n (N.odd e)) = e).
  { intros e. rewrite N.lor_comm, lor_add by (destruct (N.odd e); simpl; lia).
    change (2 ^ 1) with 2. pose proof (odd_b2n e). lia. }
  destruct (N.ltb_spec d (R - 2 ^ (C - 1))) as [D1|D1].
  - exists (pushBits d (N.to_nat C)). split; [reflexivity|].
    rewrite pushBits_be, be_bits_length. split.
    { rewrite N2Nat.id. assert (N.log2 R <> C -> True) by auto. lia. }
    intros rest. rewrite Dec by lia.
    destruct (N.leb_spec (R - 2 ^ (C - 1)) (d / 2)); [lia|].
    cbn [readBit]. rewrite Lor.
    destruct (N.ltb_spec d (R - 2 ^ (C - 1))); [|lia]. oklia.
  - destruct (N.ltb_spec d (R - 2 ^ (C - 1) + (2 ^ C - R))) as [D2|D2].
    + exists (pushBits d (N.to_nat C - 1)). split; [reflexivity|].
      rewrite pushBits_be, be_bits_length. split.
      { rewrite OF. 
        assert (N.log2 R <> C).
        { intros Eq. assert (R = 2 ^ C) by (rewrite Eq in B3; lia). lia. }
        lia. }
      intros rest. rewrite readInto_be by (rewrite OF; lia).
      destruct (N.leb_spec (R - 2 ^ (C - 1)) d); [|lia]. oklia.
    + exists (pushBits ((d + two64 - (2 ^ C - R)) mod two64) (N.to_nat C)). split; [reflexivity|].
      rewrite sub64 by (unfold two64; lia).
      rewrite pushBits_be, be_bits_length. split; [lia|].
      intros rest. rewrite Dec by lia.
      set (e := d - (2 ^ C - R)) in *.
      destruct (N.leb_spec (R - 2 ^ (C - 1)) (e / 2)); [lia|].
      cbn [readBit]. rewrite Lor.
      destruct (N.ltb_spec e (R - 2 ^ (C - 1))); [lia|]. oklia.
Qed.

(** ** Interpolative code *)

Definition increasing (l : list N) : Prop := StronglySorted N.lt l.

Lemma increasing_app : forall a x b, increasing (a ++ x :: b) ->
  increasing a /\ increasing b /\ Forall (fun y => y < x) a /\ Forall (fun y => x < y) b.
Proof.
  induction a as [|y a IH]; intros x b H; simpl in H.
  - inversion H; subst. repeat split; auto. constructor.
  - inversion H as [|? ? Hs Hf]; subst. destruct (IH _ _ Hs) as [A [B [C D]]].
    rewrite Forall_app in Hf. destruct Hf as [F1 F2]. inversion F2; subst.
    repeat split; auto.
    + constructor; auto.
Qed.

(** A strictly increasing list within bounds is not longer than the range. *)
Lemma increasing_count : forall l lo hi, increasing l -> l <> [] ->
  Forall (fun x => lo <= x <= hi) l -> N.of_nat (length l) <= hi - lo + 1.
Proof.
  induction l as [|x l IH]; intros lo hi Hs Hne Hf; [contradiction|].
  inversion Hs as [|? ? Hs' Hx]; subst. inversion Hf as [|? ? Hb Hf']; subst.
  destruct l as [|y l]; [simpl; lia|].
  assert (G : N.of_nat (length (y :: l)) <= hi - (x + 1) + 1).
  { apply IH; auto; [discriminate|].
    rewrite Forall_forall in *. intros z Hz. specialize (Hx z Hz). specialize (Hf' z Hz). simpl in *. lia. }
  inversion Hx; subst. inversion Hf'; subst.
  change (length (x :: y :: l)) with (S (length (y :: l))). rewrite Nat2N.inj_succ. lia.
Qed.

(** When it is as long as the range, it is the whole range. *)
Lemma increasing_full : forall l lo, increasing l ->
  Forall (fun x => lo <= x <= lo + N.of_nat (length l) - 1) l -> l = fromTo lo (length l).
Proof.
  induction l as [|x l IH]; intros lo Hs Hf; auto.
  inversion Hs as [|? ? Hs' Hx]; subst. inversion Hf as [|? ? Hb Hf']; subst.
  cbn [length] in *.
  assert (E : x = lo).
  { destruct l as [|y l]; [simpl in Hb; lia|].
    assert (G : N.of_nat (length (y :: l)) <= (lo + N.of_nat (S (length (y :: l))) - 1) - (x + 1) + 1).
    { apply increasing_count; auto; [discriminate|].
      rewrite Forall_forall in *. intros z Hz. specialize (Hx z Hz). specialize (Hf' z Hz). simpl in *. lia. }
    assert (x + 1 <= lo + N.of_nat (S (length (y :: l))) - 1).
    { inversion Hx; subst. inversion Hf'; subst. lia. }
    lia. }
  subst x. cbn [fromTo]. f_equal. apply IH; auto.
  rewrite Forall_forall in *. intros z Hz. specialize (Hx z Hz). specialize (Hf' z Hz).
  simpl in *. lia.
Qed.

Lemma skipn_cons_split : forall (l : list N) h, (h < length l)%nat ->
  exists x r, skipn h l = x :: r /\ l = firstn h l ++ x :: r /\ length r = (length l - 1 - h)%nat.
Proof.
  intros l h H. destruct (skipn h l) as [|x r] eqn:E.
  - apply (f_equal (@length N)) in E. rewrite skipn_length in E. simpl in E. lia.
  - exists x, r. split; auto. split.
    + rewrite <- E. symmetry. apply firstn_skipn.
    + apply (f_equal (@length N)) in E. rewrite skipn_length in E. simpl in E. lia.
Qed.

Lemma interp_spec : forall fuel l lo hi,
  (length l <= fuel)%nat -> increasing l -> Forall (fun x => lo <= x <= hi) l ->
  hi < 2 ^ 62 -> hi - lo + 1 <= 2 ^ 30 -> l <> [] ->
  exists bits, interpCode fuel l lo hi = Ok bits /\
    forall rest, interpDecode fuel (bits ++ rest) lo hi (length l) = Ok (l, length bits, rest).
Proof.
  induction fuel as [|f IH]; intros l lo hi Hf Hs Hb Hhi HR Hne.
  { destruct l; [contradiction|simpl in Hf; lia]. }
  assert (Hn1 : (1 <= length l)%nat) by (destruct l; [contradiction|simpl; lia]).
  pose proof (increasing_count l lo hi Hs Hne Hb) as Hcnt.
  assert (Hlohi : lo <= hi).
  { destruct l; [contradiction|]. inversion Hb; subst. lia. }
  assert (EncUnfold : interpCode (S f) l lo hi =
     if N.of_nat (length l - 1) =? (hi + two64 - lo) mod two64 then Ok []
     else match l with
     | [x] => binaryCode x lo hi
     | _ => let h := ((length l - 1) / 2)%nat in
            match skipn h l with
            | [] => UB
            | x :: rpart =>
              let! bm := binaryCode x (lo + N.of_nat h) (hi - N.of_nat (length l - 1 - h)) in
              let! bl := (if (0 <? h)%nat then interpCode f (firstn h l) lo (x - 1) else Ok []) in
              let! br := interpCode f rpart (x + 1) hi in
              Ok (bm ++ bl ++ br)
            end
     end).
  { destruct l; [contradiction|]. reflexivity. }
  rewrite EncUnfold. clear EncUnfold.
  rewrite sub64 by (unfold two64; lia).
  assert (DecUnfold : forall s, interpDecode (S f) s lo hi (length l) =
     if N.of_nat (length l) =? hi - lo + 1 then Ok (fromTo lo (length l), 0%nat, s)
     else
       let h := ((length l - 1) / 2)%nat in
       let r := (length l / 2 - h)%nat in
       let! (mid, n0, s) := binaryDecode s (lo + N.of_nat h) (hi - N.of_nat h - N.of_nat r) in
       let! (lpart, n1, s) := interpDecode f s lo ((mid + two64 - 1) mod two64) h in
       let! (rpart, n2, s) := interpDecode f s (mid + 1) hi (length l - h - 1) in
       Ok (lpart ++ mid :: rpart, (n0 + n1 + n2)%nat, s)).
  { intros s. cbn [interpDecode]. destruct (Nat.eqb_spec (length l) 0); [lia|].
    rewrite range64 by lia. reflexivity. }
  destruct (N.eqb_spec (N.of_nat (length l - 1)) (hi - lo)) as [E|NE].
  { exists []. split; auto. intros rest. rewrite DecUnfold.
    destruct (N.eqb_spec (N.of_nat (length l)) (hi - lo + 1)); [|lia].
    cbn [app length]. oklia.
    symmetry. apply increasing_full; auto.
    rewrite Forall_forall in *. intros z Hz. specialize (Hb z Hz). simpl in *. lia. }
  destruct (N.eqb_spec (N.of_nat (length l)) (hi - lo + 1)) as [E2|NE2]; [lia|].
  cbv zeta in DecUnfold.
  set (h := ((length l - 1) / 2)%nat) in *.
  assert (Hh : (h < length l)%nat) by (unfold h; lia).
  assert (Hr : (h + (length l / 2 - h) = length l - 1 - h)%nat) by (unfold h; lia).
  destruct (skipn_cons_split l h Hh) as [x [r [Esk [Esp Elr]]]].
  assert (Hfl : length (firstn h l) = h) by (rewrite firstn_length; lia).
  assert (Incr := Hs). rewrite Esp in Incr.
  destruct (increasing_app _ _ _ Incr) as [IncA [IncB [LtA GtB]]].
  assert (HbS := Hb). rewrite Esp in HbS. rewrite Forall_app in HbS. destruct HbS as [HbA HbB].
  inversion HbB as [|? ? Hx HbR]; subst.
  (* bounds on the middle element *)
  assert (Bx1 : lo + N.of_nat h <= x).
  { destruct (Nat.eq_dec h 0) as [->|NZ]; [lia|].
    assert (firstn h l <> []) by (intros F; rewrite F in Hfl; simpl in Hfl; lia).
    assert (G : N.of_nat (length (firstn h l)) <= (x - 1) - lo + 1).
    { apply increasing_count; auto.
      rewrite Forall_forall in *. intros z Hz. specialize (LtA z Hz). specialize (HbA z Hz). simpl in *. lia. }
    assert (lo < x).
    { destruct (firstn h l) as [|z t]; [contradiction|]. inversion LtA; inversion HbA; subst. lia. }
    lia. }
  assert (Bx2 : x + N.of_nat (length l - 1 - h) <= hi).
  { destruct r as [|z t]; [simpl in Elr; lia|].
    assert (G : N.of_nat (length (z :: t)) <= hi - (x + 1) + 1).
    { apply increasing_count; auto; [discriminate|].
      rewrite Forall_forall in *. intros y Hy. specialize (GtB y Hy). specialize (HbR y Hy). simpl in *. lia. }
    inversion GtB; inversion HbR; subst. lia. }
  destruct (binary_spec (lo + N.of_nat h) (hi - N.of_nat (length l - 1 - h)) x)
    as [bm [Ebm [_ Dbm]]]; try lia.
  destruct l as [|y [|y2 l']] eqn:El; [contradiction| |].
  - (* one element *)
    assert (Hh0 : h = 0%nat) by reflexivity. clearbody h. subst h.
    assert (x = y /\ r = []) as [-> ->].
    { cbn in Esk. inversion Esk; auto. }
    cbn [length] in *.
    replace (lo + N.of_nat 0) with lo in * by lia.
    replace (hi - N.of_nat (1 - 1 - 0)) with hi in * by (simpl; lia).
    exists bm. split; auto. intros rest. rewrite DecUnfold.
    replace (hi - N.of_nat 0 - N.of_nat (1 / 2 - 0)) with hi by (simpl; lia).
    rewrite Dbm. cbn [bind].
    assert (Z0 : forall s a b, interpDecode f s a b 0 = Ok ([], 0%nat, s)) by (intros; destruct f; reflexivity).
    rewrite Z0. cbn [bind]. rewrite Z0. cbn [bind app]. oklia.
  - rewrite <- El in *. cbv zeta. rewrite Esk, Ebm. cbn [bind].
    assert (Rne : r <> []).
    { intros F. rewrite F in Elr. simpl in Elr. unfold h in Elr.
      assert (2 <= length l)%nat by (rewrite El; simpl; lia). lia. }
    destruct (IH r (x + 1) hi) as [br [Ebr Dbr]]; auto; try lia.
    { rewrite Forall_forall in *. intros z Hz. specialize (GtB z Hz). specialize (HbR z Hz). simpl in *. lia. }
    destruct (Nat.ltb_spec 0 h) as [Hpos|Hz].
    + destruct (IH (firstn h l) lo (x - 1)) as [bl [Ebl Dbl]]; auto; try lia.
      { rewrite Forall_forall in *. intros z Hz. specialize (LtA z Hz). specialize (HbA z Hz). simpl in *. lia. }
      { intros F. rewrite F in Hfl. simpl in Hfl. lia. }
      rewrite Ebl. cbn [bind]. rewrite Ebr. cbn [bind].
      eexists. split; [reflexivity|]. intros rest. rewrite DecUnfold.
      replace (hi - N.of_nat h - N.of_nat (length l / 2 - h)) with (hi - N.of_nat (length l - 1 - h)) by lia.
      rewrite <- !app_assoc, Dbm. cbn [bind].
      replace ((x + two64 - 1) mod two64) with (x - 1) by (rewrite sub64; unfold two64; lia).
      rewrite Hfl in Dbl. rewrite Dbl. cbn [bind].
      replace (length l - h - 1)%nat with (length r) by lia. rewrite Dbr. cbn [bind].
      rewrite <- Esp, !app_length. oklia.
    + assert (h = 0%nat) by lia.
      cbn [bind]. rewrite Ebr. cbn [bind].
      eexists. split; [reflexivity|]. intros rest. rewrite DecUnfold.
      replace (hi - N.of_nat h - N.of_nat (length l / 2 - h)) with (hi - N.of_nat (length l - 1 - h)) by lia.
      rewrite <- !app_assoc, Dbm. cbn [bind app].
      assert (Z0 : forall s a b, interpDecode f s a b h = Ok ([], 0%nat, s)).
      { intros. rewrite H. destruct f; reflexivity. }
      rewrite Z0. cbn [bind].
      replace (length l - h - 1)%nat with (length r) by lia. rewrite Dbr. cbn [bind].
      rewrite !app_length. 
      assert (El2 : l = x :: r).
      { rewrite Esp. rewrite H. reflexivity. }
      rewrite El2. cbn [app length]. oklia.
Qed.

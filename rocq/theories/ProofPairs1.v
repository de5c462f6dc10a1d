(** Writing in place gives the same bytes as writing into another array. *)
From Coq Require Import List NArith ZArith Lia Arith Bool.
From Coq Require Import ZifyBool ZifyNat ZifyN.
From Verif Require Import Base Arrays TArray ModelUtils ModelStreams ProofStreams1 ModelSort ModelFreq ModelGrammar ModelPairs SpecPairs ProofGrammar3.
Import ListNotations.
Open Scope N_scope.

Lemma lo16_pair : forall a b, b < 256 -> lo16 (pair16 a b) = b.
Proof.
  intros a b Hb. unfold lo16, pair16. change 255 with (N.ones 8). rewrite N.land_ones. change (2 ^ 8) with 256.
  rewrite N.lor_comm, (ProofUtils1.lor_add b a 8) by lia. change (2 ^ 8) with 256. rewrite N.mod_add by lia. apply N.mod_small. exact Hb.
Qed.
Lemma pair16_lt : forall a b, a < 256 -> b < 256 -> pair16 a b < 65536.
Proof. intros a b Ha Hb. unfold pair16. rewrite N.lor_comm, (ProofUtils1.lor_add b a 8) by lia. lia. Qed.

(** ** Memory *)

Lemma twrite_ok : forall l mem at_, at_ + N.of_nat (length l) <= t_len mem ->
  exists mem', twrite mem at_ l = Ok mem' /\ t_len mem' = t_len mem /\
    forall j, tval mem' j = if (at_ <=? j) && (j <? at_ + N.of_nat (length l)) then nth (N.to_nat (j - at_)) l 0 else tval mem j.
Proof.
  induction l as [|x l IH]; intros mem at_ H; cbn [twrite length] in *.
  - exists mem. split; [reflexivity|]. split; [reflexivity|]. intros j.
    destruct (N.leb_spec at_ j), (N.ltb_spec j (at_ + N.of_nat 0)); cbn [andb]; try reflexivity. lia.
  - rewrite tset_ok by lia. cbn [bind]. destruct (IH (tput mem at_ x) (at_ + 1)) as (mem' & E & L & V); [rewrite tput_len; lia|].
    exists mem'. split; [exact E|]. split; [rewrite L; apply tput_len|]. intros j. rewrite V, tval_put.
    destruct (N.leb_spec (at_ + 1) j), (N.ltb_spec j (at_ + 1 + N.of_nat (length l))), (N.leb_spec at_ j),
      (N.ltb_spec j (at_ + N.of_nat (S (length l)))), (N.eqb_spec j at_); cbn [andb]; try lia; try reflexivity.
    + replace (N.to_nat (j - at_)) with (S (N.to_nat (j - (at_ + 1)))) by lia. reflexivity.
    + subst j. rewrite N.sub_diag. reflexivity.
Qed.
Lemma twrite_bound : forall l mem at_ mem', twrite mem at_ l = Ok mem' -> l <> [] -> at_ + N.of_nat (length l) <= t_len mem.
Proof.
  induction l as [|x l IH]; intros mem at_ mem' H NE; [contradiction|]. cbn [twrite length] in *.
  unfold tset in H. destruct (N.ltb_spec at_ (t_len mem)) as [A|]; [|discriminate]. cbn [bind] in H.
  destruct l as [|y l]; [cbn [length]; lia|]. apply IH in H; [|discriminate]. rewrite tput_len in H. lia.
Qed.

Lemma skip_skip : forall A (l : list A) i j, skipn i (skipn j l) = skipn (j + i) l.
Proof. induction l as [|x l IH]; intros i [|j]; cbn; auto. destruct i; reflexivity. Qed.

(** ** The loop *)

Section InPlace.
Variables (cap : nat) (common : N) (table : tarray N) (src : list N).
Let len := length src.
Hypothesis Hcap : (0 < cap)%nat.
Hypothesis Htable : t_len table = 65536.
Hypothesis Hbytes : are_bytes src.

(** State before the bytes from i on are read: [out] has been produced, of which the first [filled] bytes are
    in place; symbols from i-1 on are untouched. *)
Definition inPlaceInv (buffer : circ N) (mem : tarray N) (filled i : nat) (out : list N) : Prop :=
  (forall j, (i - 1 <= j < len)%nat -> nth_error src j = Some (tval mem (N.of_nat j))) /\
  (filled + 1 <= i)%nat /\ (filled <= length out)%nat /\
  (forall j, (j < filled)%nat -> nth_error out j = Some (tval mem (N.of_nat j))) /\
  circ_inv N cap (skipn filled out) buffer.

Lemma consumeTo_ok : forall buffer mem filled i out n, N.of_nat len <= t_len mem -> (i <= len)%nat ->
  inPlaceInv buffer mem filled i out -> (filled + n + 1 <= i)%nat ->
  exists buffer' mem' filled', consumeTo buffer mem filled n = Ok (buffer', mem', filled') /\ t_len mem' = t_len mem /\
    filled' = (filled + Nat.min n (length out - filled))%nat /\ inPlaceInv buffer' mem' filled' i out.
Proof.
  intros buffer mem filled i out n Hm Hi (I1 & I2 & I3 & I4 & I5) Hn. unfold consumeTo.
  destruct (consume_spec N cap _ _ n Hcap I5) as (b' & E & C'). rewrite E. cbn [bind].
  destruct (twrite_ok (firstn n (skipn filled out)) mem (N.of_nat filled)) as (mem' & E2 & L2 & V2).
  { rewrite firstn_length. lia. }
  rewrite E2. cbn [bind]. do 3 eexists. split; [reflexivity|]. split; [exact L2|].
  rewrite firstn_length, skipn_length in *. split; [reflexivity|].
  set (f' := (filled + Nat.min n (length out - filled))%nat). assert (Hf' : (f' + 1 <= i)%nat) by (unfold f'; lia).
  split; [|split; [exact Hf'|split; [unfold f'; lia|split]]].
  - intros j Hj. rewrite V2. destruct (N.leb_spec (N.of_nat filled) (N.of_nat j)); cbn [andb]; [|apply I1; exact Hj].
    destruct (N.ltb_spec (N.of_nat j) (N.of_nat filled + N.of_nat (Nat.min n (length out - filled)))); [unfold f' in *; lia|apply I1; exact Hj].
  - intros j Hj. rewrite V2. destruct (N.leb_spec (N.of_nat filled) (N.of_nat j)); cbn [andb]; [|apply I4; lia].
    destruct (N.ltb_spec (N.of_nat j) (N.of_nat filled + N.of_nat (Nat.min n (length out - filled)))); [|unfold f' in *; lia].
    replace (N.to_nat (N.of_nat j - N.of_nat filled)) with (j - filled)%nat by lia.
    assert (X : nth_error (firstn n (skipn filled out)) (j - filled) = nth_error out j).
    { rewrite <- (firstn_skipn filled out) at 2. rewrite nth_error_app2 by (rewrite firstn_length; lia).
      rewrite firstn_length. replace (Nat.min filled (length out)) with filled by lia.
      rewrite <- (firstn_skipn n (skipn filled out)) at 2. rewrite nth_error_app1; [reflexivity|].
      rewrite firstn_length, skipn_length. unfold f' in *. lia. }
    rewrite <- X. apply nth_error_nth'. rewrite firstn_length, skipn_length. unfold f' in *. lia.
  - unfold f'. destruct (Nat.le_gt_cases n (length out - filled)) as [Q|Q].
    + rewrite Nat.min_l by lia. rewrite <- skip_skip. exact C'.
    + replace (skipn n (skipn filled out)) with (@nil N) in C' by (symmetry; apply skipn_all2; rewrite skipn_length; lia).
      rewrite skipn_all2 by lia. exact C'.
Qed.

Lemma push_inv : forall buffer mem filled i out x, inPlaceInv buffer mem filled i out -> (length out - filled < cap)%nat ->
  exists buffer', circPush buffer x = Ok buffer' /\ inPlaceInv buffer' mem filled i (out ++ [x]).
Proof.
  intros buffer mem filled i out x (I1 & I2 & I3 & I4 & I5) H.
  destruct (push_spec N cap _ _ x Hcap I5) as (b' & E & C); [rewrite skipn_length; exact H|]. exists b'. split; [exact E|].
  split; [exact I1|]. split; [exact I2|]. split; [rewrite app_length; lia|]. split.
  - intros j Hj. rewrite nth_error_app1 by lia. apply I4. exact Hj.
  - rewrite skipn_app. replace (filled - length out)%nat with 0%nat by lia. exact C.
Qed.

Lemma full_len : forall buffer mem filled i out, inPlaceInv buffer mem filled i out ->
  circFull buffer = (cap <=? length out - filled)%nat /\ (length out - filled <= cap)%nat /\ c_count buffer = (length out - filled)%nat.
Proof.
  intros buffer mem filled i out (I1 & I2 & I3 & I4 & (C1 & C2 & C3 & C4)). unfold circFull. rewrite C1, C2, skipn_length in *.
  split; [reflexivity|]. split; [exact C3|reflexivity].
Qed.

(** Consuming when full leaves room, if not too many bytes have been added. *)
Lemma consumeIfFull_ok : forall buffer mem filled i out, N.of_nat len <= t_len mem -> (i <= len)%nat ->
  inPlaceInv buffer mem filled i out -> (length out + 2 <= i + cap)%nat ->
  exists buffer' mem' filled', consumeIfFull buffer mem filled i = Ok (buffer', mem', filled') /\ t_len mem' = t_len mem /\
    inPlaceInv buffer' mem' filled' i out /\ (length out - filled' < cap)%nat.
Proof.
  intros buffer mem filled i out Hm Hi I H. unfold consumeIfFull.
  destruct (full_len _ _ _ _ _ I) as (F & B & _). rewrite F.
  destruct (Nat.leb_spec cap (length out - filled)) as [G|G].
  - assert (I2 := I). destruct I2 as (_ & I2 & I3 & _). destruct (Nat.leb_spec (filled + 1) i); [|lia].
    destruct (consumeTo_ok buffer mem filled i out (i - filled - 1) Hm Hi I ltac:(lia)) as (b' & m' & f' & E & L & Ef & I').
    exists b', m', f'. split; [exact E|]. split; [exact L|]. split; [exact I'|]. lia.
  - exists buffer, mem, filled. auto.
Qed.

Lemma inv_shift : forall buffer mem filled i j out, inPlaceInv buffer mem filled i out -> (i <= j)%nat -> inPlaceInv buffer mem filled j out.
Proof.
  intros buffer mem filled i j out (I1 & I2 & I3 & I4 & I5) H. split; [intros k Hk; apply I1; lia|]. split; [lia|]. auto.
Qed.

Definition twice (l : list N) : nat := doubles common table l.
Lemma twice_cons : forall c l, twice (c :: l) = ((if writtenTwice common table c then 1 else 0) + twice l)%nat.
Proof. intros c l. unfold twice, doubles. cbn [filter]. destruct (writtenTwice common table c); reflexivity. Qed.
Lemma writtenTwice_true : forall c j, j < 256 -> lo16 (tval table (pair16 c j)) <> common -> writtenTwice common table c = true.
Proof.
  intros c j Hj H. unfold writtenTwice. apply existsb_exists. exists j. split.
  - apply in_map_iff. exists (N.to_nat j). split; [lia|]. apply in_seq. lia.
  - destruct (N.eqb_spec (lo16 (tval table (pair16 c j))) common); [contradiction|reflexivity].
Qed.

Hypothesis Hcommon : common < 256.

(** The end of the loop: everything has been produced; at most cap bytes are pending unless the last symbol was
    written as two bytes into a buffer with one free place. *)
Lemma inPlaceLoop_ok : forall fuel i buffer mem filled out prev,
  N.of_nat len <= t_len mem -> (1 <= i < len)%nat -> (len - i < fuel)%nat ->
  inPlaceInv buffer mem filled i out -> (length out - filled < cap)%nat -> nth_error src (i - 1) = Some prev ->
  (length out + twice (skipn (i - 1) src) + 3 <= i + cap)%nat ->
  exists l mem' filled',
    replaceLoop common table prev (skipn i src) = Ok l /\ t_len mem' = t_len mem /\
    ((exists buffer', inPlaceLoop fuel common table len buffer mem filled i prev = Ok (buffer', mem', filled') /\
                      inPlaceInv buffer' mem' filled' len (out ++ l)) \/
     (exists c d z, l = z ++ [c; d] /\ (length (out ++ l) - filled' = S cap)%nat /\
        writtenTwice common table (nth (len - 1) src 0) = true /\
        exists buffer', inPlaceLoop fuel common table len buffer mem filled i prev = Ok (buffer', mem', filled') /\
        c_count buffer' = S cap /\ length (c_data buffer') = cap)).
Proof.
  induction fuel as [|fuel IH]; intros i buffer mem filled out prev Hm Hi Hf I Hq Hprev Hex; [lia|].
  assert (GB : forall j x, nth_error src j = Some x -> x < 256).
  { intros j x E. apply nth_error_In in E. unfold are_bytes in Hbytes. rewrite Forall_forall in Hbytes. apply Hbytes. exact E. }
  assert (TG : forall a b, a < 256 -> b < 256 -> tget table (pair16 a b) = Ok (tval table (pair16 a b))).
  { intros a b Ha Hb. apply tget_ok. rewrite Htable. apply pair16_lt; assumption. }
  (* the step after index i' has been handled, with out' produced *)
  assert (NEXT : forall i' buffer1 mem1 filled1 out1 c1,
    (i <= i' < len)%nat -> t_len mem1 = t_len mem -> inPlaceInv buffer1 mem1 filled1 i' out1 ->
    (length out1 + 2 <= i' + cap)%nat -> (length out1 + twice (skipn i' src) + 3 <= S i' + cap)%nat ->
    nth_error src i' = Some c1 ->
    exists l mem' filled',
      (match skipn (S i') src with
       | [] => let! v := tget table (pair16 c1 0) in Ok (if lo16 v =? common then [c1] else [hi16 v; lo16 v])
       | _ => replaceLoop common table c1 (skipn (S i') src)
       end) = Ok l /\ t_len mem' = t_len mem /\
      let run := (let! (buffer, mem, filled) := consumeIfFull buffer1 mem1 filled1 i' in
                  if (i' =? len - 1)%nat then
                    let! e := tget mem (N.of_nat i') in
                    let! w := tget table (pair16 e 0) in
                    let! buffer :=
                      (if lo16 w =? common then circPush buffer e
                       else let! buffer := circPush buffer (hi16 w) in circPush buffer (lo16 w)) in
                    Ok (buffer, mem, filled)
                  else inPlaceLoop fuel common table len buffer mem filled (S i') c1) in
      ((exists buffer', run = Ok (buffer', mem', filled') /\ inPlaceInv buffer' mem' filled' len (out1 ++ l)) \/
       (exists c d z, l = z ++ [c; d] /\ (length (out1 ++ l) - filled' = S cap)%nat /\
          writtenTwice common table (nth (len - 1) src 0) = true /\
          exists buffer', run = Ok (buffer', mem', filled') /\ c_count buffer' = S cap /\ length (c_data buffer') = cap))).
  { intros i' buffer1 mem1 filled1 out1 c1 Hi' Lm1 I1 H1 H2 Hc1.
    destruct (consumeIfFull_ok buffer1 mem1 filled1 i' out1 ltac:(lia) ltac:(lia) I1 H1) as (b2 & m2 & f2 & E & L2 & I2 & Q2).
    assert (c1 < 256) by (apply (GB i'); exact Hc1). rewrite E. cbn [bind]. cbv zeta.
    destruct (Nat.eqb_spec i' (len - 1)) as [Last|NL].
    - rewrite (skipn_all2 src (n := S i')) by (fold len; lia).
      rewrite (TG c1 0) by lia. cbn [bind].
      assert (EM : tget m2 (N.of_nat i') = Ok c1).
      { rewrite tget_ok by lia. destruct I2 as (I2 & _). specialize (I2 i' ltac:(lia)). rewrite Hc1 in I2. injection I2 as <-. reflexivity. }
      rewrite EM. cbn [bind]. rewrite (TG c1 0) by lia. cbn [bind].
      set (w := tval table (pair16 c1 0)). eexists. exists m2, f2. split; [reflexivity|]. split; [lia|].
      destruct (N.eqb_spec (lo16 w) common) as [Ew|Nw].
      + left. destruct (push_inv _ _ _ _ _ c1 I2 Q2) as (b3 & E3 & I3). rewrite E3. cbn [bind]. eexists. split; [reflexivity|].
        apply (inv_shift _ _ _ i'); [exact I3|lia].
      + destruct (push_inv _ _ _ _ _ (hi16 w) I2 Q2) as (b3 & E3 & I3). rewrite E3. cbn [bind].
        destruct (Nat.eq_dec (S (length out1 - f2)) cap) as [EF|NF].
        * right. exists (hi16 w), (lo16 w), []. split; [reflexivity|].
          assert (F2 : (f2 <= length out1)%nat) by apply I2.
          split; [rewrite app_length; cbn [length]; lia|].
          split.
          { replace (len - 1)%nat with i' by lia. rewrite (nth_error_nth src i' 0 Hc1). apply (writtenTwice_true c1 0); [lia|exact Nw]. }
          destruct (full_len _ _ _ _ _ I3) as (_ & _ & CC). rewrite app_length in CC. cbn [length] in CC.
          assert (LD : length (c_data b3) = cap) by apply I3.
          unfold circPush. rewrite LD.
          match goal with |- context [(?x <? cap)%nat] => assert (HX : (x < cap)%nat) end.
          { destruct (Nat.leb_spec cap (c_head b3)); lia. }
          destruct (Nat.ltb_spec (if (cap <=? c_head b3)%nat then 0 else c_head b3) cap); [|lia]. cbn [bind].
          eexists. split; [reflexivity|]. cbn [c_count c_data]. split; [lia|].
          rewrite app_length. cbn [length]. rewrite firstn_length, skipn_length, LD. lia.
        * left. assert (F2 : (f2 <= length out1)%nat) by apply I2.
          destruct (push_inv _ _ _ _ _ (lo16 w) I3) as (b4 & E4 & I4); [rewrite app_length; cbn [length]; lia|].
          rewrite E4. cbn [bind]. eexists. split; [reflexivity|]. rewrite <- app_assoc in I4. apply (inv_shift _ _ _ i'); [exact I4|lia].
    - destruct (skipn (S i') src) as [|x y] eqn:Esk.
      { exfalso. apply (f_equal (@length N)) in Esk. rewrite skipn_length in Esk. fold len in Esk. cbn in Esk. lia. }
      rewrite <- Esk.
      destruct (IH (S i') b2 m2 f2 out1 c1) as (l & m' & f' & R1 & R2 & R3); auto; try lia.
      + apply (inv_shift _ _ _ i'); [exact I2|lia].
      + replace (S i' - 1)%nat with i' by lia. exact Hc1.
      + replace (S i' - 1)%nat with i' by lia. exact H2.
      + exists l, m', f'. split; [exact R1|]. split; [lia|]. exact R3. }
  destruct (skipn_cons_nth _ src i ltac:(fold len; lia)) as (c & Hc & Esk). rewrite Esk.
  destruct (skipn_cons_nth _ src (i - 1) ltac:(fold len; lia)) as (p' & Hp' & Esk').
  rewrite Hprev in Hp'. injection Hp' as <-. replace (S (i - 1)) with i in Esk' by lia. rewrite Esk', twice_cons in Hex.
  assert (Bp : prev < 256) by (apply (GB (i - 1)%nat); exact Hprev).
  assert (Bc : c < 256) by (apply (GB i); exact Hc).
  cbn [replaceLoop inPlaceLoop].
  assert (MC : tget mem (N.of_nat i) = Ok c).
  { rewrite tget_ok by lia. destruct I as (I1 & _). specialize (I1 i ltac:(lia)). rewrite Hc in I1. injection I1 as <-. reflexivity. }
  rewrite MC. cbn [bind]. rewrite (TG prev c Bp Bc). cbn [bind]. set (v := tval table (pair16 prev c)).
  destruct (N.eqb_spec v (pair16 common common)) as [Ev|Nv].
  - assert (MP : tget mem (N.of_nat i - 1) = Ok prev).
    { replace (N.of_nat i - 1) with (N.of_nat (i - 1)) by lia. rewrite tget_ok by lia. destruct I as (I1 & _).
      specialize (I1 (i - 1)%nat ltac:(lia)). rewrite Hprev in I1. injection I1 as <-. reflexivity. }
    rewrite MP. cbn [bind]. destruct (push_inv _ _ _ _ _ prev I Hq) as (b1 & E1 & I1). rewrite E1. cbn [bind].
    destruct (NEXT i b1 mem filled (out ++ [prev]) c) as (l & m' & f' & R1 & R2 & R3); auto; try lia;
      try (rewrite app_length; cbn [length]; lia).
    rewrite R1. cbn [bind]. exists (prev :: l), m', f'. split; [reflexivity|]. split; [exact R2|].
    rewrite <- app_assoc in R3. cbn [app] in R3. destruct R3 as [R3|(x & y & z & -> & R3)]; [left; exact R3|right].
    exists x, y, (prev :: z). split; [reflexivity|]. exact R3.
  - destruct (N.eqb_spec (lo16 v) common) as [El|Nl].
    + destruct (push_inv _ _ _ _ _ (hi16 v) I Hq) as (b1 & E1 & I1). rewrite E1. cbn [bind].
      destruct (Nat.eqb_spec i (len - 1)) as [Last|NL].
      * rewrite (skipn_all2 src (n := S i)) by (fold len; lia). cbn [bind].
        do 3 eexists. split; [reflexivity|]. split; [|left; eexists; split; [reflexivity|apply (inv_shift _ _ _ i); [exact I1|lia]]]. reflexivity.
      * destruct (skipn_cons_nth _ src (S i) ltac:(fold len; lia)) as (d & Hd & Esk2). rewrite Esk2.
        assert (MD : tget mem (N.of_nat (S i)) = Ok d).
        { rewrite tget_ok by lia. destruct I as (I0 & _). specialize (I0 (S i) ltac:(lia)). congruence. }
        rewrite MD. cbn [bind].
        assert (TW : (twice (skipn i src) >= twice (skipn (S i) src))%nat) by (rewrite Esk, twice_cons; lia).
        destruct (NEXT (S i) b1 mem filled (out ++ [hi16 v]) d) as (l & m' & f' & R1 & R2 & R3); auto; try lia.
        { apply (inv_shift _ _ _ i); [exact I1|lia]. }
        { rewrite app_length. cbn [length]. lia. }
        { rewrite app_length. cbn [length]. lia. }
        exists (hi16 v :: l), m', f'. split.
        { destruct (skipn (S (S i)) src); rewrite R1; reflexivity. }
        split; [exact R2|].
        rewrite <- app_assoc in R3. cbn [app] in R3. destruct R3 as [R3|(x & y & z & -> & R3)]; [left; exact R3|right].
        exists x, y, (hi16 v :: z). split; [reflexivity|]. exact R3.
    + assert (WT : writtenTwice common table prev = true) by (apply (writtenTwice_true prev c); assumption).
      rewrite WT in Hex.
      destruct (push_inv _ _ _ _ _ (hi16 v) I Hq) as (b1 & E1 & I1). rewrite E1. cbn [bind].
      destruct (consumeIfFull_ok b1 mem filled i (out ++ [hi16 v]) Hm ltac:(lia) I1) as (b2 & m2 & f2 & E2 & L2 & I2 & Q2).
      { rewrite app_length. cbn [length]. lia. }
      rewrite E2. cbn [bind]. destruct (push_inv _ _ _ _ _ (lo16 v) I2 Q2) as (b3 & E3 & I3). rewrite E3. cbn [bind].
      destruct (NEXT i b3 m2 f2 ((out ++ [hi16 v]) ++ [lo16 v]) c) as (l & m' & f' & R1 & R2 & R3); auto; try lia;
        try (rewrite !app_length; cbn [length]; lia).
      rewrite R1. cbn [bind]. exists (hi16 v :: lo16 v :: l), m', f'. split; [reflexivity|]. split; [exact R2|].
      rewrite <- !app_assoc in R3. cbn [app] in R3. destruct R3 as [R3|(x & y & z & -> & R3)]; [left; exact R3|right].
      exists x, y, (hi16 v :: lo16 v :: z). split; [reflexivity|]. exact R3.
Qed.
End InPlace.

Lemma twrite_len : forall l mem at_ mem', twrite mem at_ l = Ok mem' -> t_len mem' = t_len mem.
Proof.
  induction l as [|x l IH]; intros mem at_ mem' H; cbn [twrite] in H; [injection H as <-; reflexivity|].
  unfold tset in H. destruct (at_ <? t_len mem); [|discriminate]. cbn [bind] in H. apply IH in H. exact H.
Qed.

Lemma C34_all : forall cap common table room src,
  t_len table = 65536 -> common < 256 -> are_bytes src -> (2 <= length src <= room)%nat ->
  (doubles common table src + 2 <= cap)%nat -> (cap < length src)%nat ->
  (cap + 1 < length src \/ doubles common table src = 0)%nat ->
  (forall l, writeInPlace cap common table room src = Ok l -> writeReplaced common table room src = Ok l) /\
  (writtenTwice common table (nth (length src - 1) src 0) = false ->
   writeInPlace cap common table room src = writeReplaced common table room src).
Proof.
  intros cap common table room src Ht Hc Hb Hlen Hd Hcap Hcap2.
  destruct src as [|first rest] eqn:Es; [cbn in Hlen; lia|]. rewrite <- Es in *.
  assert (SK : skipn 1 src = rest) by (rewrite Es; reflexivity).
  set (mem := tfill (tmake (N.of_nat room) 0) 0 src).
  assert (Lm : t_len mem = N.of_nat room) by (unfold mem; rewrite tfill_len; reflexivity).
  assert (Vm : forall j, (j < length src)%nat -> nth_error src j = Some (tval mem (N.of_nat j))).
  { intros j Hj. unfold mem. rewrite tval_fill.
    destruct (N.leb_spec 0 (N.of_nat j)); [|lia]. destruct (N.ltb_spec (N.of_nat j) (0 + N.of_nat (length src))); [|lia]. cbn [andb].
    replace (N.to_nat (N.of_nat j - 0)) with j by lia. apply nth_error_nth'. exact Hj. }
  assert (M0 : tget mem 0 = Ok first).
  { rewrite tget_ok by lia. specialize (Vm 0%nat ltac:(lia)). rewrite Es in Vm. cbn in Vm. congruence. }
  assert (I0 : inPlaceInv cap src (circInit cap) mem 0 1 []).
  { split; [intros j Hj; apply Vm; lia|]. split; [lia|]. split; [cbn; lia|]. split; [intros j Hj; lia|].
    cbn [skipn]. apply circInit_inv. lia. }
  destruct (inPlaceLoop_ok cap common table src ltac:(lia) Ht Hb Hc (S (length src)) 1 (circInit cap) mem 0 [] first)
    as (l & mem' & filled' & R & Lm' & Cases); auto; try lia; try (cbn [length]; lia).
  { rewrite Es. reflexivity. }
  { cbn [length skipn]. unfold twice. rewrite Nat.sub_diag. cbn [skipn]. lia. }
  rewrite SK in R. cbn [app] in Cases.
  assert (WR : writeReplaced common table room src = if (length l <=? room)%nat then Ok l else UB).
  { unfold writeReplaced. rewrite Es, R. reflexivity. }
  unfold writeInPlace. destruct (Nat.leb_spec (length src) room); [|lia]. fold mem. rewrite M0. cbn [bind].
  destruct Cases as [(b' & E & I')|(x & y & z & El & Hpend & HW & b' & E & HC & HD)].
  - (* regular end *)
    rewrite E. cbn [bind]. unfold consumeTo.
    assert (I2 := I'). destruct I2 as (_ & I2 & I3 & I4 & I5). destruct (full_len _ _ _ _ _ _ _ I') as (_ & FB & _).
    destruct (consume_spec N cap _ _ (length src - 1) ltac:(lia) I5) as (b2 & E2 & _). rewrite E2. cbn [bind].
    rewrite firstn_all2 by (rewrite skipn_length; lia).
    assert (X : (let! (_, mem0, filled) := (let! mem0 := twrite mem' (N.of_nat filled') (skipn filled' l) in
                  Ok (b2, mem0, (filled' + length (skipn filled' l))%nat)) in Ok (ttake mem0 0 filled)) =
                if (length l <=? room)%nat then Ok l else UB).
    { destruct (Nat.leb_spec (length l) room) as [LE|GT].
      - destruct (twrite_ok (skipn filled' l) mem' (N.of_nat filled')) as (m2 & E3 & L3 & V3); [rewrite skipn_length; lia|].
        rewrite E3. cbn [bind]. f_equal. rewrite skipn_length in *. replace (filled' + (length l - filled'))%nat with (length l) by lia.
        apply ttake_list. intros j Hj. rewrite N.add_0_l, V3.
        destruct (N.leb_spec (N.of_nat filled') (N.of_nat j)); cbn [andb]; [|apply I4; lia].
        destruct (N.ltb_spec (N.of_nat j) (N.of_nat filled' + N.of_nat (length l - filled'))); [|lia].
        replace (N.to_nat (N.of_nat j - N.of_nat filled')) with (j - filled')%nat by lia.
        rewrite <- (firstn_skipn filled' l) at 1. rewrite nth_error_app2 by (rewrite firstn_length; lia).
        rewrite firstn_length. replace (Nat.min filled' (length l)) with filled' by lia.
        apply nth_error_nth'. rewrite skipn_length. lia.
      - destruct (twrite mem' (N.of_nat filled') (skipn filled' l)) as [m2| |] eqn:E3; cbn [bind]; try reflexivity.
        + exfalso. apply twrite_bound in E3; [rewrite skipn_length in E3; lia|].
          intros X. apply (f_equal (@length N)) in X. rewrite skipn_length in X. cbn in X. lia.
        + exfalso. clear -E3. revert E3. generalize (skipn filled' l). generalize (N.of_nat filled'). revert mem'.
          intros m a q. revert m a. induction q as [|u q IH]; intros m a H; cbn [twrite] in H; [discriminate|].
          unfold tset in H. destruct (a <? t_len m); [|discriminate]. cbn [bind] in H. apply IH in H. exact H. }
    rewrite X, WR. split; [auto|]. reflexivity.
  - (* the buffer overflowed *)
    assert (DZ : (doubles common table src <> 0)%nat).
    { intros Z. unfold doubles in Z. apply length_zero_iff_nil in Z.
      assert (IN : In (nth (length src - 1) src 0) (filter (writtenTwice common table) src)).
      { apply filter_In. split; [apply nth_In; lia|exact HW]. }
      rewrite Z in IN. exact IN. }
    rewrite E. cbn [bind]. unfold consumeTo, circConsume. rewrite HC, HD.
    replace (Nat.min (length src - 1) (S cap)) with (S cap) by lia.
    destruct (Nat.leb_spec (S cap) cap); [lia|]. cbn [bind]. split; [discriminate|]. congruence.
Qed.

(** Extraction of witnesses from a computed check. *)
Lemma decided : forall {A B C D} (o : outcome (A * B * C)) (f : B -> C -> outcome D) (f' : B -> C -> outcome D),
  match o with
  | Ok (g, common, table) =>
    match f common table with UB => match f' common table with Ok _ => true | _ => false end | _ => false end
  | _ => false
  end = true ->
  exists g common table l, o = Ok (g, common, table) /\ f common table = UB /\ f' common table = Ok l.
Proof.
  intros A B C D o f f' H. destruct o as [[[g c] t]| |]; try discriminate. exists g, c, t.
  destruct (f c t); try discriminate. destruct (f' c t) as [l| |] eqn:E; try discriminate. exists l. auto.
Qed.

Lemma decidedShort : forall {A B C} (o : outcome (A * B * C)) (f f' : B -> C -> outcome (list N)) l l',
  match o with
  | Ok (g, common, table) =>
    match f common table, f' common table with
    | Ok x, Ok y => (if list_eq_dec N.eq_dec x l then true else false) && (if list_eq_dec N.eq_dec y l' then true else false)
    | _, _ => false
    end
  | _ => false
  end = true ->
  exists g common table, o = Ok (g, common, table) /\ f common table = Ok l /\ f' common table = Ok l'.
Proof.
  intros A B C o f f' l l' H. destruct o as [[[g c] t]| |]; try discriminate. exists g, c, t. split; [reflexivity|].
  destruct (f c t) as [x| |]; try discriminate. destruct (f' c t) as [y| |]; try discriminate.
  destruct (list_eq_dec N.eq_dec x l) as [->|]; [|discriminate]. destruct (list_eq_dec N.eq_dec y l') as [->|]; [|discriminate]. auto.
Qed.

(** Output stream and circular buffer: lemmas. *)
From Coq Require Import List NArith ZArith Lia Arith Bool.
From Coq Require Import ZifyBool ZifyNat ZifyN.
From Verif Require Import Base ModelUtils ProofUtils1 ModelStreams SpecStreams.
Import ListNotations.
Open Scope N_scope.

Lemma bytes48_spec : forall v, bytes48 v = big_endian_6 v.
Proof.
  intros v. unfold bytes48, big_endian_6. cbn [map].
  rewrite !(N.land_comm 255), !land_255, !shiftr_div. change (0 * 8) with 0.
  rewrite N.pow_0_r, N.div_1_r. reflexivity.
Qed.

Definition out_inv (K : nat) (written : list N) (st : outStream) : Prop :=
  o_file st ++ o_buf st = written /\ o_pos st = length (o_file st) /\ (length (o_buf st) < K)%nat.

Lemma fwrite_end : forall st data, o_pos st = length (o_file st) ->
  fwriteAt st data = mkOut (o_file st ++ data) (length (o_file st ++ data)) (o_buf st).
Proof.
  intros [f p b] data E. cbn in E. subst p. unfold fwriteAt. cbn [o_file o_pos o_buf].
  rewrite firstn_all, skipn_all2 by lia. rewrite app_nil_r, app_length. reflexivity.
Qed.

Lemma flush_inv : forall K w st, out_inv K w st -> outFlush st = mkOut w (length w) [].
Proof.
  intros K w [f p b] [A [B C]]. cbn [o_file o_pos o_buf] in *. unfold outFlush. cbn [o_buf].
  destruct b as [|x b].
  - rewrite app_nil_r in A. subst. reflexivity.
  - rewrite fwrite_end by exact B. cbn [o_file o_pos o_buf]. rewrite A. reflexivity.
Qed.

Lemma runOut1_spec : forall K w st op, (0 < K)%nat -> out_inv K w st -> validOut w op ->
  exists st', runOut1 K st op = Ok (st', match op with OPos => [length w] | _ => [] end) /\
    out_inv K (specOut w op) st'.
Proof.
  intros K w st op HK H V. pose proof (flush_inv K w st H) as F.
  assert (HF : out_inv K w (mkOut w (length w) [])).
  { repeat split; cbn; auto using app_nil_r. }
  destruct op as [b|l| | |v p]; cbn [runOut1 specOut].
  - destruct H as [A [B C]]. unfold writeByte.
    destruct (Nat.ltb_spec (length (o_buf st)) K); [|lia].
    cbn [o_buf o_file o_pos]. rewrite app_length. cbn [length].
    destruct (Nat.eqb_spec (length (o_buf st) + 1) K) as [E|NE].
    + rewrite fwrite_end by exact B. cbn [bind o_file o_pos o_buf].
      eexists. split; [reflexivity|]. unfold out_inv. cbn. rewrite app_nil_r, app_assoc, A.
      repeat split; auto.
    + cbn [bind]. eexists. split; [reflexivity|]. unfold out_inv. cbn.
      rewrite app_assoc, A, app_length. cbn. repeat split; auto. lia.
  - eexists. split; [reflexivity|]. unfold writeBlock.
    destruct (Nat.ltb_spec (length (o_buf st) + length l) K).
    + destruct H as [A [B C]]. unfold out_inv. cbn. rewrite app_assoc, A, app_length. repeat split; auto.
    + rewrite F, fwrite_end by reflexivity. cbn. unfold out_inv. cbn.
      rewrite app_nil_r. repeat split; auto.
  - rewrite F. eauto.
  - unfold getPos. rewrite F. cbn [o_pos]. eauto.
  - destruct V as [V1 V2]. unfold write48bits. rewrite F. cbn [o_pos o_file o_buf].
    destruct (N.ltb_spec v (2 ^ 48)); [|lia].
    destruct (Nat.leb_spec p (length w)); [|lia]. cbn [bind].
    rewrite bytes48_spec. eexists. split; [reflexivity|].
    unfold fwriteAt, out_inv. cbn [o_file o_pos o_buf].
    change (length (big_endian_6 v)) with 6%nat. rewrite app_nil_r.
    repeat split; auto.
    rewrite !app_length, firstn_length, skipn_length. change (length (big_endian_6 v)) with 6%nat. lia.
Qed.

Lemma runOut_spec : forall K, (0 < K)%nat -> forall ops w st, out_inv K w st -> validOutAll w ops ->
  exists st', runOut K st ops = Ok (st', specPositions w ops) /\ out_inv K (specOutAll w ops) st'.
Proof.
  intros K HK. induction ops as [|op ops IH]; intros w st H V; cbn [runOut specPositions specOutAll].
  - eauto.
  - destruct V as [V1 V2].
    destruct (runOut1_spec K w st op HK H V1) as [st1 [E1 I1]]. rewrite E1. cbn [bind].
    destruct (IH _ _ I1 V2) as [st2 [E2 I2]]. rewrite E2. cbn [bind]. eauto.
Qed.

Lemma C25_all : forall K, (0 < K)%nat -> forall ops, validOutAll [] ops ->
  exists st, runOut K outInit ops = Ok (st, specPositions [] ops) /\
             outClose st = specOutAll [] ops.
Proof.
  intros K HK ops V. destruct (runOut_spec K HK ops [] outInit) as [st [E I]]; auto.
  - repeat split; auto.
  - exists st. split; [exact E|]. unfold outClose. rewrite (flush_inv _ _ _ I). reflexivity.
Qed.

(** ** Circular buffer *)
Section Circ.
Variable T : Type.

(** Cell [i] places after [start]. *)
Definition cell (c : circ T) (i : nat) : option (option T) :=
  nth_error (c_data c) ((c_start c + i) mod length (c_data c)).

Definition circ_inv (cap : nat) (q : list T) (c : circ T) : Prop :=
  length (c_data c) = cap /\ c_count c = length q /\ (length q <= cap)%nat /\
  (c_start c < cap)%nat /\ (c_head c <= cap)%nat /\
  (c_head c mod cap = (c_start c + length q) mod cap)%nat /\
  forall i x, nth_error q i = Some x -> cell c i = Some (Some x).

Lemma nth_error_set : forall {A} (l : list A) i v j, (i < length l)%nat ->
  nth_error (firstn i l ++ v :: skipn (S i) l) j = if (j =? i)%nat then Some v else nth_error l j.
Proof.
  intros A l i v j Hi.
  destruct (Nat.eqb_spec j i) as [->|NE].
  - rewrite nth_error_app2; rewrite firstn_length; [|lia].
    replace (i - Nat.min i (length l))%nat with 0%nat by lia. reflexivity.
  - destruct (Nat.lt_ge_cases j i).
    + rewrite nth_error_app1 by (rewrite firstn_length; lia).
      rewrite <- (firstn_skipn i l) at 2.
      rewrite nth_error_app1 by (rewrite firstn_length; lia). reflexivity.
    + rewrite nth_error_app2 by (rewrite firstn_length; lia). rewrite firstn_length.
      replace (j - Nat.min i (length l))%nat with (S (j - i - 1)) by lia. cbn [nth_error].
      rewrite <- (firstn_skipn (S i) l) at 2.
      rewrite nth_error_app2 by (rewrite firstn_length; lia). rewrite firstn_length.
      f_equal. lia.
Qed.

Lemma mod_ne : forall a b i j n, (0 < n)%nat -> (i < j)%nat -> (j < i + n)%nat ->
  a = b -> ((a + i) mod n <> (b + j) mod n)%nat.
Proof.
  intros a b i j n Hn H1 H2 -> E.
  pose proof (Nat.div_mod (b + i) n ltac:(lia)). pose proof (Nat.div_mod (b + j) n ltac:(lia)).
  rewrite E in *. assert (n * ((b + j) / n) = n * ((b + i) / n) + (j - i))%nat by lia.
  assert ((b + j) / n - (b + i) / n < 1 \/ 1 <= (b + j) / n - (b + i) / n)%nat by lia. nia.
Qed.

Lemma push_spec : forall cap q c v, (0 < cap)%nat -> circ_inv cap q c -> (length q < cap)%nat ->
  exists c', circPush c v = Ok c' /\ circ_inv cap (q ++ [v]) c'.
Proof.
  intros cap q c v Hcap (L & C & Hq & Hs & Hh & HM & HC) Hlt.
  unfold circPush. rewrite L.
  set (head := if (cap <=? c_head c)%nat then 0%nat else c_head c).
  assert (Hhd : (head < cap)%nat /\ head = (c_head c mod cap)%nat).
  { unfold head. destruct (Nat.leb_spec cap (c_head c)).
    - assert (c_head c = cap) as -> by lia. rewrite Nat.mod_same by lia. lia.
    - rewrite Nat.mod_small by lia. lia. }
  destruct Hhd as [H1 H2]. destruct (Nat.ltb_spec head cap); [|lia].
  eexists. split; [reflexivity|].
  unfold circ_inv. cbn [c_data c_head c_start c_count].
  assert (L' : length (firstn head (c_data c) ++ Some v :: skipn (S head) (c_data c)) = cap).
  { rewrite app_length, firstn_length. cbn [length]. rewrite skipn_length. lia. }
  rewrite (app_length q). cbn [length].
  split; [exact L'|]. split; [lia|]. split; [lia|]. split; [lia|]. split; [lia|].
  split.
  { rewrite <- Nat.add_1_r, Nat.add_assoc. rewrite <- (Nat.add_mod_idemp_l (c_start c + length q)) by lia.
    rewrite <- HM, <- H2. reflexivity. }
  intros i x Hi. unfold cell. cbn [c_data c_start]. rewrite L', nth_error_set by lia.
  rewrite H2, HM.
  destruct (Nat.lt_ge_cases i (length q)) as [Hlt2|Hge].
  - rewrite nth_error_app1 in Hi by assumption.
    destruct (Nat.eqb_spec ((c_start c + i) mod cap) ((c_start c + length q) mod cap)) as [E|NE].
    + exfalso. revert E. apply mod_ne; lia.
    + specialize (HC i x Hi). unfold cell in HC. rewrite L in HC. exact HC.
  - rewrite nth_error_app2 in Hi by assumption.
    destruct (i - length q)%nat eqn:Ei; cbn in Hi; [|destruct n; discriminate].
    inversion Hi; subst. replace i with (length q) by lia. rewrite Nat.eqb_refl. reflexivity.
Qed.

Lemma copy_spec : forall (l : list (option T)) r,
  (forall i x, nth_error r i = Some x -> nth_error l i = Some (Some x)) -> length l = length r ->
  copyCells l = Ok r.
Proof.
  induction l as [|c l IH]; intros [|x r] H HL; try discriminate; auto.
  pose proof (H 0%nat x eq_refl) as H0. cbn in H0. inversion H0; subst.
  cbn [copyCells]. rewrite (IH r); [reflexivity| |simpl in HL; lia].
  intros i y Hi. apply (H (S i)). exact Hi.
Qed.

Lemma nth_error_slice : forall {A} (l : list A) a b i, (i < b - a)%nat ->
  nth_error (slice l a b) i = nth_error l (a + i).
Proof.
  intros A l a b i Hi. unfold slice.
  assert (G : forall (m : list A) n j, (j < n)%nat -> nth_error (firstn n m) j = nth_error m j).
  { induction m as [|y m IHm]; intros [|n] [|j] Hj; simpl; auto; try lia. apply IHm. lia. }
  rewrite G by exact Hi.
  revert a i Hi. clear. induction l as [|y l IHl]; intros [|a] i Hi; simpl; auto.
  - destruct i; reflexivity.
  - apply IHl. lia.
Qed.

Lemma slice_length : forall {A} (l : list A) a b, (a <= b)%nat -> (b <= length l)%nat ->
  length (slice l a b) = (b - a)%nat.
Proof. intros. unfold slice. rewrite firstn_length, skipn_length. lia. Qed.

Lemma nth_error_firstn_some : forall {A} (l : list A) n i x,
  nth_error (firstn n l) i = Some x -> (i < n)%nat /\ nth_error l i = Some x.
Proof.
  induction l as [|y l IH]; intros [|n] [|i] x H; simpl in *; try discriminate.
  - split; [lia|auto].
  - destruct (IH n i x H). split; [lia|auto].
Qed.

Lemma nth_error_skipn_eq : forall {A} (l : list A) n i, nth_error (skipn n l) i = nth_error l (n + i).
Proof. induction l as [|y l IH]; intros [|n] i; simpl; auto. destruct i; reflexivity. Qed.

Lemma consume_spec : forall cap q c n, (0 < cap)%nat -> circ_inv cap q c ->
  exists c', circConsume c n = Ok (c', firstn n q) /\ circ_inv cap (skipn n q) c'.
Proof.
  intros cap q c n Hcap (L & C & Hq & Hs & Hh & HM & HC).
  unfold circConsume. rewrite L, C. set (len := Nat.min n (length q)).
  assert (Hlen : length (firstn n q) = len) by (rewrite firstn_length; reflexivity).
  assert (Hq' : length (skipn n q) = (length q - len)%nat) by (rewrite skipn_length; lia).
  destruct (Nat.leb_spec len cap); [|lia].
  assert (After : forall ns, ns = ((c_start c + len) mod cap)%nat ->
    circ_inv cap (skipn n q) (mkCirc (c_data c) (c_head c) ns (length q - len))).
  { intros ns Ens. unfold circ_inv. cbn [c_data c_head c_start c_count].
    split; [exact L|]. split; [lia|]. split; [lia|].
    split. { subst ns. apply Nat.mod_upper_bound. lia. }
    split; [lia|]. split.
    - rewrite HM, Ens, Nat.add_mod_idemp_l by lia. f_equal. lia.
    - intros i x Hi. rewrite nth_error_skipn_eq in Hi.
      assert (n + i < length q)%nat by (apply nth_error_Some; congruence).
      specialize (HC _ _ Hi). unfold cell in *. cbn [c_data c_start]. rewrite L in *.
      rewrite Ens, Nat.add_mod_idemp_l by lia. rewrite <- HC. f_equal. f_equal. lia. }
  assert (Cells : forall i x, nth_error (firstn n q) i = Some x ->
     nth_error (c_data c) ((c_start c + i) mod cap) = Some (Some x)).
  { intros i x Hi. apply nth_error_firstn_some in Hi. destruct Hi as [_ Hi].
    specialize (HC _ _ Hi). unfold cell in HC. rewrite L in HC. exact HC. }
  destruct (Nat.leb_spec cap (c_start c + len)) as [Hw|Hn].
  - set (k := (cap - c_start c)%nat).
    rewrite (copy_spec _ (firstn k (firstn n q))).
    + cbn [bind]. rewrite (copy_spec _ (skipn k (firstn n q))).
      * cbn [bind]. rewrite firstn_skipn. eexists. split; [reflexivity|].
        apply After. unfold k.
        assert (Ew : (c_start c + len = (len - (cap - c_start c)) + 1 * cap)%nat) by lia.
        rewrite Ew, Nat.mod_add by lia. rewrite Nat.mod_small; [reflexivity|]. lia.
      * intros i x Hi. rewrite nth_error_skipn_eq in Hi.
        assert (k + i < length (firstn n q))%nat by (apply nth_error_Some; congruence).
        rewrite nth_error_slice by (unfold k in *; lia). apply Cells in Hi.
        rewrite <- Hi. f_equal.
        assert (Ew : (c_start c + (k + i) = i + 1 * cap)%nat) by (unfold k; lia).
        rewrite Ew, Nat.mod_add by lia. rewrite Nat.mod_small; [reflexivity|]. lia.
      * rewrite slice_length, skipn_length by lia. unfold k. lia.
    + intros i x Hi. apply nth_error_firstn_some in Hi. destruct Hi as [Hk Hi].
      rewrite nth_error_slice by (unfold k in *; lia). apply Cells in Hi.
      rewrite Nat.mod_small in Hi by (unfold k in *; lia). exact Hi.
    + rewrite slice_length, firstn_length by lia. unfold k. lia.
  - rewrite (copy_spec _ (firstn n q)).
    + cbn [bind]. eexists. split; [reflexivity|]. apply After. rewrite Nat.mod_small; lia.
    + intros i x Hi.
      assert (i < length (firstn n q))%nat by (apply nth_error_Some; congruence).
      rewrite nth_error_slice by lia. apply Cells in Hi. rewrite Nat.mod_small in Hi by lia. exact Hi.
    + rewrite slice_length by lia. lia.
Qed.

Lemma runQ_spec : forall cap, (0 < cap)%nat -> forall ops q c, circ_inv cap q c -> validQ cap q ops ->
  runQ c ops = Ok (specQAll cap q ops).
Proof.
  intros cap Hcap. induction ops as [|op ops IH]; intros q c H V; auto.
  destruct V as [V1 V2]. cbn [runQ specQAll].
  destruct op as [v|n|]; cbn [runQ1 specQ fst] in *.
  - destruct (push_spec cap q c v Hcap H V1) as [c' [E I]]. rewrite E. cbn [bind].
    rewrite (IH _ _ I V2). reflexivity.
  - destruct (consume_spec cap q c n Hcap H) as [c' [E I]]. rewrite E. cbn [bind].
    rewrite (IH _ _ I V2). reflexivity.
  - cbn [bind]. rewrite (IH _ _ H V2). cbn [bind]. do 3 f_equal. unfold circFull.
    destruct H as (L & C & Hq & _). rewrite L, C.
    destruct (Nat.leb_spec cap (length q)); destruct (Nat.eqb_spec (length q) cap); auto; lia.
Qed.

Lemma circInit_inv : forall cap, (0 < cap)%nat -> circ_inv cap [] (circInit cap).
Proof.
  intros cap H. unfold circ_inv, circInit. cbn. rewrite repeat_length.
  repeat split; auto; try lia. intros [|i] x Hi; discriminate.
Qed.
End Circ.

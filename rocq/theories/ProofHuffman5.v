(** Canonical codes (C11). *)
From Coq Require Import List NArith ZArith Lia Arith Bool Permutation Sorted.
From Coq Require Import ZifyBool ZifyNat ZifyN.
From Verif Require Import Base Arrays ModelUtils ModelStreams ModelHeaders ModelHuffman SpecHuffman SpecHeaders.
From Verif Require Import ProofHuffman3.
Import ListNotations.
Open Scope nat_scope.

(** Number of symbols with length k, in a table of [N] lengths. *)
Definition cnt (clen : list N) (k : nat) : nat := length (filter (fun l => (l =? N.of_nat k)%N) clen).
Lemma cnt_cons : forall l r k, cnt (l :: r) k = (if (l =? N.of_nat k)%N then 1 else 0) + cnt r k.
Proof. intros l r k. unfold cnt. cbn [filter]. destruct (l =? N.of_nat k)%N; reflexivity. Qed.
Lemma cnt_app : forall a b k, cnt (a ++ b) k = cnt a k + cnt b k.
Proof. induction a as [|x a IH]; intros b k; [reflexivity|]. cbn [app]. rewrite !cnt_cons, IH. lia. Qed.
Lemma cnt_le : forall a k, cnt a k <= length a.
Proof. induction a as [|x a IH]; intros k; [cbn; lia|]. rewrite cnt_cons. specialize (IH k). cbn [length]. destruct (x =? N.of_nat k)%N; lia. Qed.

Lemma countLengths_spec : forall clen counts, Forall (fun l => (N.to_nat l < length counts)) clen ->
  exists counts', countLengths clen counts = Ok counts' /\ length counts' = length counts /\
    forall k c, nth_error counts k = Some c -> nth_error counts' k = Some (c + N.of_nat (cnt clen k))%N.
Proof.
  induction clen as [|l r IH]; intros counts F.
  - exists counts. split; [reflexivity|]. split; [reflexivity|]. intros k c H. rewrite H. f_equal. cbn. lia.
  - inversion_clear F as [|? ? F1 F2].
    destruct (nth_error_lt counts (N.to_nat l) F1) as [c Hc].
    destruct (IH (upd counts (N.to_nat l) (c + 1)%N)) as (c' & A & B & C).
    { rewrite upd_length. exact F2. }
    rewrite upd_length in B.
    exists c'. split; [|split; [exact B|]].
    + cbn [countLengths]. rewrite (get_ok _ _ _ Hc). cbn [bind]. rewrite set_ok by exact F1. cbn [bind]. exact A.
    + intros k x Hx. rewrite cnt_cons.
      destruct (Nat.eq_dec k (N.to_nat l)) as [->|NE].
      * rewrite (C _ (c + 1)%N) by (apply nth_error_upd_same; exact F1).
        assert (x = c) as -> by congruence.
        replace (l =? N.of_nat (N.to_nat l))%N with true by lia. f_equal. lia.
      * rewrite (C k x) by (rewrite nth_error_upd_other; auto).
        replace (l =? N.of_nat k)%N with false by lia. f_equal.
Qed.

Lemma lastNonZero_from : forall counts k m0,
  let m := fold_left (fun m (p : N * nat) => if (0 <? fst p)%N then snd p else m)
             (combine counts (seq k (length counts))) m0 in
  (m = m0 \/ (k <= m < k + length counts /\ exists c, nth_error counts (m - k) = Some c /\ (0 < c)%N)) /\
  forall j c, nth_error counts j = Some c -> (0 < c)%N -> k + j <= m.
Proof.
  induction counts as [|x counts IH]; intros k m0; cbn [length seq combine fold_left].
  - split; [left; reflexivity|]. intros [|j] c H; discriminate.
  - cbn [fst snd]. cbv zeta.
    destruct (IH (S k) (if (0 <? x)%N then k else m0)) as [A B].
    set (m := fold_left _ _ _) in *.
    split.
    + destruct A as [A|(A1 & c & A2 & A3)].
      * destruct (N.ltb_spec 0 x) as [L|L]; [|left; exact A]. right. rewrite A. split; [lia|].
        exists x. rewrite Nat.sub_diag. cbn. auto.
      * right. split; [lia|]. exists c. replace (m - k) with (S (m - S k)) by lia. cbn. auto.
    + intros [|j] c H P.
      * cbn in H. injection H as <-. destruct A as [A|(A & _)]; [|lia].
        destruct (N.ltb_spec 0 x); lia.
      * cbn in H. specialize (B j c H P). lia.
Qed.
Lemma lastNonZero_spec : forall counts,
  (lastNonZero counts = 0 \/ (lastNonZero counts < length counts /\
     exists c, nth_error counts (lastNonZero counts) = Some c /\ (0 < c)%N)) /\
  forall j c, nth_error counts j = Some c -> (0 < c)%N -> j <= lastNonZero counts.
Proof.
  intros counts. destruct (lastNonZero_from counts 0 0) as [A B]. fold (lastNonZero counts) in *.
  split; [|intros j c H1 H2; exact (B j c H1 H2)].
  destruct A as [A|(A1 & c & A2 & A3)]; [left; exact A|]. right. split; [lia|].
  exists c. rewrite Nat.sub_0_r in A2. auto.
Qed.

Lemma used_cons : forall l r, used (l :: r) = if (0 <? l)%N then N.to_nat l :: used r else used r.
Proof. intros l r. unfold used. cbn [filter]. destruct (0 <? l)%N; reflexivity. Qed.

(** Kraft sum of the lengths above k. *)
Definition above (M : nat) (clen : list N) (k : nat) : N := kraft M (filter (fun l => k <? l) (used clen)).

Lemma above_pred : forall M clen k, 1 <= k ->
  above M clen (k - 1) = (above M clen k + N.of_nat (cnt clen k) * 2 ^ N.of_nat (M - k))%N.
Proof.
  intros M clen k K. unfold above. induction clen as [|l r IH]; [reflexivity|].
  rewrite used_cons, cnt_cons. destruct (N.ltb_spec 0 l) as [L|L].
  - cbn [filter]. destruct (N.eqb_spec l (N.of_nat k)) as [->|NE].
    + rewrite Nat2N.id. replace (k - 1 <? k) with true by lia. replace (k <? k) with false by lia.
      rewrite kraft_cons, IH. set (u := (2 ^ N.of_nat (M - k))%N). lia.
    + destruct (Nat.ltb_spec (k - 1) (N.to_nat l)).
      * replace (k <? N.to_nat l) with true by lia. rewrite !kraft_cons, IH. lia.
      * replace (k <? N.to_nat l) with false by lia. rewrite IH. lia.
  - replace (l =? N.of_nat k)%N with false by lia. rewrite IH. reflexivity.
Qed.
Lemma above_mono : forall M clen j k, j <= k -> (above M clen k <= above M clen j)%N.
Proof.
  intros M clen j k H. induction H as [|k H IH]; [lia|].
  pose proof (above_pred M clen (S k) ltac:(lia)) as A. replace (S k - 1) with k in A by lia. lia.
Qed.
Lemma above_max : forall M clen, Forall (fun l => N.to_nat l <= M) clen -> above M clen M = 0%N.
Proof.
  intros M clen F. unfold above. induction F as [|l r H F IH]; [reflexivity|]. rewrite used_cons.
  destruct (0 <? l)%N; [|exact IH]. cbn [filter]. replace (M <? N.to_nat l) with false by lia. exact IH.
Qed.
Lemma above_zero : forall M clen, above M clen 0 = kraft M (used clen).
Proof.
  intros M clen. unfold above. induction clen as [|l r IH]; [reflexivity|]. rewrite used_cons.
  destruct (N.ltb_spec 0 l); [|exact IH]. cbn [filter]. replace (0 <? N.to_nat l) with true by lia.
  rewrite !kraft_cons, IH. reflexivity.
Qed.
Lemma above_bound : forall M clen k, k <= M -> (above M clen k <= N.of_nat (length clen) * 2 ^ N.of_nat (M - k))%N.
Proof.
  intros M clen k K. unfold above. induction clen as [|l r IH]; [cbn; lia|]. rewrite used_cons. cbn [length].
  assert (G : forall x, k < x -> (2 ^ N.of_nat (M - x) <= 2 ^ N.of_nat (M - k))%N).
  { intros x Hx. apply N.pow_le_mono_r; lia. }
  destruct (0 <? l)%N; [|nia]. cbn [filter]. destruct (Nat.ltb_spec k (N.to_nat l)) as [L|L]; [|nia].
  rewrite kraft_cons. specialize (G _ L). nia.
Qed.


Lemma above_divides : forall M clen k, codeTable clen -> Forall (fun l => N.to_nat l <= M) clen ->
  (used clen = [1] -> M = 1) -> 1 <= k <= M -> exists s, above M clen k = (2 ^ N.of_nat (M - k) * s)%N.
Proof.
  intros M clen k [C|C] F Hs K.
  - assert (F' : Forall (fun l => l <= M) (used clen)).
    { unfold used. rewrite Forall_map. apply Forall_forall. intros x Hx. apply filter_In in Hx.
      rewrite Forall_forall in F. apply F. apply Hx. }
    specialize (C M F').
    (* total = low part + high part *)
    assert (SP : exists c, (kraft M (used clen) = above M clen k + 2 ^ N.of_nat (M - k) * c)%N).
    { clear C F Hs. unfold above. induction (used clen) as [|x l IH]; [exists 0%N; cbn; lia|].
      inversion_clear F' as [|? ? F1 F2]. destruct (IH F2) as [c Hc]. rewrite kraft_cons. cbn [filter].
      destruct (Nat.ltb_spec k x) as [L|L].
      - exists c. rewrite kraft_cons. lia.
      - exists (2 ^ N.of_nat (k - x) + c)%N. rewrite Hc.
        replace (N.of_nat (M - x)) with (N.of_nat (M - k) + N.of_nat (k - x))%N by lia.
        rewrite N.pow_add_r. lia. }
    destruct SP as [c SP]. rewrite C in SP.
    replace (N.of_nat M) with (N.of_nat (M - k) + N.of_nat k)%N in SP by lia. rewrite N.pow_add_r in SP.
    exists (2 ^ N.of_nat k - c)%N. rewrite N.mul_sub_distr_l. lia.
  - specialize (Hs C). assert (k = 1) as -> by lia. exists 0%N. unfold above. rewrite C. subst M. reflexivity.
Qed.

Definition first (M : nat) (clen : list N) (k : nat) : N := (above M clen k / 2 ^ N.of_nat (M - k))%N.
Lemma pow2_pos : forall n, (0 < 2 ^ n)%N.
Proof. intros n. apply N.neq_0_lt_0, N.pow_nonzero. lia. Qed.
Lemma first_exact : forall M clen k s, above M clen k = (2 ^ N.of_nat (M - k) * s)%N -> first M clen k = s.
Proof. intros M clen k s H. unfold first. rewrite H, N.mul_comm. apply N.div_mul. pose proof (pow2_pos (N.of_nat (M - k))). lia. Qed.

Section Table.
Variables (M : nat) (clen : list N).
Hypothesis T : codeTable clen.
Hypothesis F : Forall (fun l => N.to_nat l <= M) clen.
Hypothesis Hs : used clen = [1] -> M = 1.

Lemma first_above : forall k, 1 <= k <= M -> above M clen k = (2 ^ N.of_nat (M - k) * first M clen k)%N.
Proof. intros k K. destruct (above_divides M clen k T F Hs K) as [s H]. rewrite (first_exact _ _ _ _ H). exact H. Qed.
Lemma first_step : forall k, 2 <= k <= M ->
  (first M clen k + N.of_nat (cnt clen k) = 2 * first M clen (k - 1))%N.
Proof.
  intros k K. pose proof (first_above k ltac:(lia)) as A. pose proof (first_above (k - 1) ltac:(lia)) as B.
  pose proof (above_pred M clen k ltac:(lia)) as C. rewrite A, B in C.
  assert (E : (2 ^ N.of_nat (M - (k - 1)) = 2 ^ N.of_nat (M - k) * 2)%N).
  { replace (N.of_nat (M - (k - 1))) with (N.succ (N.of_nat (M - k))) by lia. rewrite N.pow_succ_r'. lia. }
  rewrite E in C. pose proof (pow2_pos (N.of_nat (M - k))).
  set (u := (2 ^ N.of_nat (M - k))%N) in *. nia.
Qed.
Lemma first_top : first M clen M = 0%N.
Proof. unfold first. rewrite above_max by exact F. rewrite Nat.sub_diag. reflexivity. Qed.
Lemma first_le : forall k, 1 <= k <= M -> (first M clen k <= N.of_nat (length clen))%N.
Proof.
  intros k K. pose proof (first_above k K) as A. pose proof (above_bound M clen k ltac:(lia)) as B.
  rewrite A in B. pose proof (pow2_pos (N.of_nat (M - k))). set (u := (2 ^ N.of_nat (M - k))%N) in *. nia.
Qed.
(** Codes of length j, cut to k bits, come before the codes of length k. *)
Lemma first_order : forall j k c, 1 <= k < j -> j <= M -> (c < first M clen j + N.of_nat (cnt clen j))%N ->
  (c / 2 ^ N.of_nat (j - k) < first M clen k)%N.
Proof.
  intros j k c K J C.
  pose proof (first_step j ltac:(lia)) as S1. rewrite S1 in C.
  pose proof (first_above (j - 1) ltac:(lia)) as A. pose proof (first_above k ltac:(lia)) as B.
  pose proof (above_mono M clen k (j - 1) ltac:(lia)) as D. rewrite A, B in D.
  apply N.div_lt_upper_bound; [pose proof (pow2_pos (N.of_nat (j - k))); lia|].
  assert (E1 : (2 ^ N.of_nat (M - (j - 1)) = 2 ^ N.of_nat (M - j) * 2)%N).
  { replace (N.of_nat (M - (j - 1))) with (N.succ (N.of_nat (M - j))) by lia. rewrite N.pow_succ_r'. lia. }
  assert (E2 : (2 ^ N.of_nat (M - k) = 2 ^ N.of_nat (M - j) * 2 ^ N.of_nat (j - k))%N).
  { rewrite <- N.pow_add_r. f_equal. lia. }
  rewrite E1, E2 in D. pose proof (pow2_pos (N.of_nat (M - j))).
  set (u := (2 ^ N.of_nat (M - j))%N) in *. set (v := (2 ^ N.of_nat (j - k))%N) in *. nia.
Qed.
Lemma first_fits : forall k, 1 <= k <= M -> (first M clen k + N.of_nat (cnt clen k) <= 2 ^ N.of_nat k)%N.
Proof.
  intros k K. destruct T as [C|C].
  - assert (F' : Forall (fun l => l <= M) (used clen)).
    { unfold used. rewrite Forall_map. apply Forall_forall. intros x Hx. apply filter_In in Hx.
      rewrite Forall_forall in F. apply F. apply Hx. }
    specialize (C M F'). rewrite <- above_zero in C.
    pose proof (above_mono M clen 0 (k - 1) ltac:(lia)) as D. rewrite C in D.
    rewrite above_pred in D by lia. rewrite (first_above k K) in D.
    replace (N.of_nat M) with (N.of_nat (M - k) + N.of_nat k)%N in D by lia. rewrite N.pow_add_r in D.
    pose proof (pow2_pos (N.of_nat (M - k))). set (u := (2 ^ N.of_nat (M - k))%N) in *. nia.
  - specialize (Hs C). assert (k = M) as -> by lia. rewrite first_top.
    assert (X : (N.of_nat (cnt clen M) <= 1)%N); [|subst M; cbn; lia].
    assert (E : cnt clen M <= length (used clen)).
    { clear - Hs K. unfold used. rewrite map_length. induction clen as [|l r IH]; [cbn; lia|].
      rewrite cnt_cons. cbn [filter]. destruct (N.eqb_spec l (N.of_nat M)) as [->|NE].
      - replace (0 <? N.of_nat M)%N with true by lia. cbn [length]. lia.
      - destruct (0 <? l)%N; cbn [length]; lia. }
    rewrite C in E. cbn in E. lia.
Qed.

(** A code word has at most as many significant bits as symbols need: below 256. *)
Lemma first_small : forall k, 1 <= k <= M -> (first M clen k + N.of_nat (cnt clen k) <= N.of_nat (length clen))%N.
Proof.
  (* #symbols longer than k  >=  first k  *)
  assert (G : forall d, d < M -> (first M clen (M - d) + N.of_nat (cnt clen (M - d)) <=
     N.of_nat (length (filter (fun l => (M - d <=? l)%nat) (used clen))))%N).
  { induction d as [|d IH]; intros Hd.
    - rewrite Nat.sub_0_r, first_top. rewrite N.add_0_l. apply N.eq_le_incl. f_equal. clear - F Hd.
      induction clen as [|l r IH]; [reflexivity|]. inversion_clear F as [|? ? F1 F2].
      rewrite cnt_cons, used_cons. rewrite (IH F2). destruct (N.ltb_spec 0 l) as [L|L].
      + cbn [filter]. destruct (N.eqb_spec l (N.of_nat M)); destruct (Nat.leb_spec M (N.to_nat l)); cbn [length]; lia.
      + replace (l =? N.of_nat M)%N with false by lia. reflexivity.
    - specialize (IH ltac:(lia)). pose proof (first_step (M - d) ltac:(lia)) as S1.
      replace (M - d - 1) with (M - S d) in S1 by lia.
      assert (E : length (filter (fun l => M - S d <=? l) (used clen)) =
                  cnt clen (M - S d) + length (filter (fun l => M - d <=? l) (used clen))).
      { clear - Hd. induction clen as [|l r IH]; [reflexivity|]. rewrite cnt_cons, used_cons.
        destruct (N.ltb_spec 0 l) as [L|L].
        - cbn [filter]. destruct (N.eqb_spec l (N.of_nat (M - S d))) as [->|NE].
          + replace (M - S d <=? N.to_nat (N.of_nat (M - S d))) with true by lia.
            replace (M - d <=? N.to_nat (N.of_nat (M - S d))) with false by lia. cbn [length]. lia.
          + destruct (Nat.leb_spec (M - S d) (N.to_nat l)); destruct (Nat.leb_spec (M - d) (N.to_nat l)); cbn [length]; lia.
        - replace (l =? N.of_nat (M - S d))%N with false by lia. lia. }
      rewrite E. lia. }
  intros k K. specialize (G (M - k) ltac:(lia)). replace (M - (M - k)) with k in G by lia.
  etransitivity; [exact G|].
  assert (Q : length (filter (fun l => k <=? l) (used clen)) <= length clen); [|lia].
  clear. induction clen as [|l r IH]; [cbn; lia|]. rewrite used_cons. destruct (0 <? l)%N; cbn [filter length]; [|lia].
  destruct (k <=? N.to_nat l); cbn [length]; lia.
Qed.

Lemma startLoop_spec : length clen <= 256 -> forall counts, (forall j, j <= M -> exists c, nth_error counts j = Some c /\
     (1 <= j -> c = N.of_nat (cnt clen j))) ->
  forall k v start, k <= M -> M < length start -> (1 <= k -> v = first M clen k) ->
  exists start', startLoop (S k) v counts start = Ok start' /\ length start' = length start /\
    (forall j, 1 <= j <= k -> nth_error start' j = Some (first M clen j)) /\
    (forall j, k < j -> nth_error start' j = nth_error start j).
Proof.
  intros L256 counts HC. induction k as [|k IH]; intros v start K L V.
  - destruct (HC 0 ltac:(lia)) as (c & C1 & _).
    exists (upd start 0 v). cbn [startLoop]. rewrite set_ok by lia. cbn [bind]. rewrite (get_ok _ _ _ C1). cbn [bind].
    split; [reflexivity|]. split; [apply upd_length|]. split; [intros; lia|].
    intros j Hj. apply nth_error_upd_other; lia.
  - destruct (HC (S k) ltac:(lia)) as (c & C1 & C2). specialize (C2 ltac:(lia)). specialize (V ltac:(lia)).
    destruct (IH (N.shiftr ((v + c) mod two32) 1) (upd start (S k) v)) as (st & A & B & C & D).
    + lia. + rewrite upd_length. lia.
    + intros K1. pose proof (first_step (S k) ltac:(lia)) as S1. replace (S k - 1) with k in S1 by lia.
      pose proof (first_le k ltac:(lia)).
      rewrite N.mod_small by (unfold two32; lia). rewrite N.shiftr_div_pow2. change (2 ^ 1)%N with 2%N.
      subst v c. rewrite S1. rewrite N.mul_comm. apply N.div_mul. lia.
    + rewrite upd_length in B. exists st. split; [|split; [exact B|split]].
      * change (startLoop (S (S k)) v counts start) with
          (let! start := set start (S k) v in let! c := get counts (S k) in
           startLoop (S k) (N.shiftr ((v + c) mod two32) 1) counts start).
        rewrite set_ok by lia. cbn [bind]. rewrite (get_ok _ _ _ C1). cbn [bind]. exact A.
      * intros j Hj. destruct (Nat.eq_dec j (S k)) as [->|].
        -- rewrite D by lia. rewrite nth_error_upd_same by lia. congruence.
        -- apply C. lia.
      * intros j Hj. rewrite D by lia. apply nth_error_upd_other; lia.
Qed.
End Table.

Lemma assignCodes_spec : forall clen start, Forall (fun l => N.to_nat l < length start) clen ->
  exists codes, assignCodes clen start = Ok codes /\ length codes = length clen /\
    forall i l, nth_error clen i = Some l ->
      (l = 0%N -> nth_error codes i = Some 0%N) /\
      (forall s, (0 < l)%N -> nth_error start (N.to_nat l) = Some s ->
         nth_error codes i = Some (s + N.of_nat (cnt (firstn i clen) (N.to_nat l)))%N).
Proof.
  induction clen as [|x r IH]; intros start F.
  - exists []. split; [reflexivity|]. split; [reflexivity|]. intros [|i] l H; discriminate.
  - inversion_clear F as [|? ? F1 F2]. cbn [assignCodes]. destruct (N.ltb_spec 0 x) as [L|L].
    + destruct (nth_error_lt start (N.to_nat x) F1) as [c Hc].
      destruct (IH (upd start (N.to_nat x) (c + 1)%N)) as (codes & A & B & C); [rewrite upd_length; exact F2|].
      exists (c :: codes). rewrite (get_ok _ _ _ Hc). cbn [bind]. rewrite set_ok by exact F1. cbn [bind]. rewrite A.
      cbn [bind length]. split; [reflexivity|]. split; [lia|].
      intros [|i] l H; cbn [nth_error] in H.
      * injection H as <-. split; [lia|]. intros s _ Hs. cbn. assert (s = c) as -> by congruence. f_equal. lia.
      * destruct (C i l H) as [C1 C2]. split; [exact C1|]. intros s Hl Hs. cbn [nth_error firstn]. rewrite cnt_cons.
        destruct (N.eq_dec l x) as [->|NE].
        -- rewrite (C2 (c + 1)%N Hl) by (apply nth_error_upd_same; exact F1).
           assert (s = c) as -> by congruence. replace (x =? N.of_nat (N.to_nat x))%N with true by lia. f_equal. lia.
        -- rewrite (C2 s Hl) by (rewrite nth_error_upd_other; auto; lia).
           replace (x =? N.of_nat (N.to_nat l))%N with false by lia. reflexivity.
    + destruct (IH start F2) as (codes & A & B & C). exists (0%N :: codes). rewrite A. cbn [bind length].
      split; [reflexivity|]. split; [lia|].
      intros [|i] l H; cbn [nth_error] in H.
      * injection H as <-. split; [reflexivity|]. intros s Hl. lia.
      * destruct (C i l H) as [C1 C2]. split; [exact C1|]. intros s Hl Hs. cbn [nth_error firstn]. rewrite cnt_cons.
        replace (x =? N.of_nat (N.to_nat l))%N with false by lia. apply C2; auto.
Qed.

Lemma cnt_split : forall clen i j l, i <= j -> nth_error clen i = Some l ->
  cnt (firstn j clen) (N.to_nat l) =
  cnt (firstn i clen) (N.to_nat l) + cnt (firstn (j - i) (skipn i clen)) (N.to_nat l).
Proof.
  intros clen i j l H Hi. rewrite <- cnt_app. f_equal.
  rewrite <- (firstn_skipn i (firstn j clen)). rewrite firstn_firstn. replace (Nat.min i j) with i by lia.
  f_equal. rewrite skipn_firstn_comm. reflexivity.
Qed.

Lemma used_in : forall clen l, In l clen -> (0 < l)%N -> In (N.to_nat l) (used clen).
Proof. intros clen l H P. unfold used. apply in_map. apply filter_In. split; [exact H|lia]. Qed.

(** Everything about the codes: [start] values given by [first]. *)
Lemma computeHuffmanCodes_spec : forall clen, length clen = 256 -> Forall (fun l => (l < 256)%N) clen -> codeTable clen ->
  exists M codes, computeHuffmanCodes clen = Ok codes /\ length codes = 256 /\ M < 256 /\
    Forall (fun l => N.to_nat l <= M) clen /\ (used clen = [1] -> M = 1) /\
    forall i l, nth_error clen i = Some l ->
      (l = 0%N -> nth_error codes i = Some 0%N) /\
      ((0 < l)%N -> nth_error codes i = Some (first M clen (N.to_nat l) + N.of_nat (cnt (firstn i clen) (N.to_nat l)))%N /\
         cnt (firstn i clen) (N.to_nat l) < cnt clen (N.to_nat l)).
Proof.
  intros clen L F T.
  destruct (countLengths_spec clen (repeat 0%N 256)) as (counts & A1 & A2 & A3).
  { eapply Forall_impl; [|exact F]. cbn beta. intros a Ha. rewrite repeat_length. lia. }
  rewrite repeat_length in A2.
  set (M := lastNonZero counts).
  destruct (lastNonZero_spec counts) as [B1 B2]. fold M in B1, B2.
  assert (M256 : M < 256) by (destruct B1 as [->|[? _]]; lia).
  assert (CN : forall j, j < 256 -> nth_error counts j = Some (N.of_nat (cnt clen j))).
  { intros j Hj. rewrite (A3 j 0%N) by (apply nth_error_repeat_lt; exact Hj). f_equal. }
  assert (CP : forall i l, nth_error clen i = Some l -> cnt (firstn i clen) (N.to_nat l) < cnt clen (N.to_nat l)).
  { intros i l Hi. rewrite <- (firstn_skipn i clen) at 2. rewrite cnt_app.
    destruct (skipn i clen) as [|y t] eqn:E.
    - rewrite <- (firstn_skipn i clen) in Hi. rewrite E, app_nil_r in Hi.
      apply nth_error_bound in Hi. rewrite firstn_length in Hi. lia.
    - assert (y = l).
      { rewrite <- (firstn_skipn i clen) in Hi. rewrite E in Hi.
        assert (i < length clen).
        { apply nth_error_bound in Hi. rewrite <- E, firstn_skipn in Hi. exact Hi. }
        rewrite nth_error_app2 in Hi by (rewrite firstn_length; lia).
        rewrite firstn_length in Hi. replace (i - Nat.min i (length clen)) with 0 in Hi by lia. cbn in Hi. congruence. }
      subst y. rewrite cnt_cons. replace (l =? N.of_nat (N.to_nat l))%N with true by lia. lia. }
  assert (FM : Forall (fun l => N.to_nat l <= M) clen).
  { apply Forall_forall. intros l Hl. destruct (In_nth_error _ _ Hl) as [i Hi].
    rewrite Forall_forall in F. specialize (F l Hl).
    apply (B2 (N.to_nat l) (N.of_nat (cnt clen (N.to_nat l)))); [apply CN; lia|].
    specialize (CP i l Hi). lia. }
  assert (HM : used clen = [1] -> M = 1).
  { intros U. destruct (Nat.eq_dec M 0) as [E0|N0].
    - exfalso. assert (X : In 1 (used clen)) by (rewrite U; left; auto).
      unfold used in X. apply in_map_iff in X. destruct X as (l & E1 & X). apply filter_In in X.
      rewrite Forall_forall in FM. specialize (FM l (proj1 X)). lia.
    - destruct B1 as [?|(_ & c & C1 & C2)]; [lia|]. rewrite (CN M M256) in C1. injection C1 as <-.
      assert (exists l, In l clen /\ l = N.of_nat M) as (l & Hl & ->).
      { clear - C2. induction clen as [|x r IH]; [cbn in C2; lia|]. rewrite cnt_cons in C2.
        destruct (N.eqb_spec x (N.of_nat M)) as [->|]; [exists (N.of_nat M); cbn; auto|].
        destruct IH as (l & ? & ?); [lia|]. exists l. cbn. auto. }
      pose proof (used_in clen _ Hl ltac:(lia)) as Q. rewrite U in Q. destruct Q as [Q|[]]. lia. }
  destruct (startLoop_spec M clen T FM HM ltac:(lia) counts) with (k := M) (v := 0%N) (start := repeat 0%N 256)
    as (start & S1 & S2 & S3 & _).
  { intros j Hj. exists (N.of_nat (cnt clen j)). split; [apply CN; lia|auto]. }
  { lia. } { rewrite repeat_length. lia. } { intros _. symmetry. apply first_top. exact FM. }
  rewrite repeat_length in S2.
  destruct (assignCodes_spec clen start) as (codes & D1 & D2 & D3).
  { eapply Forall_impl; [|exact F]. cbn beta. intros; lia. }
  exists M, codes. split.
  - unfold computeHuffmanCodes. rewrite A1. cbn [bind]. fold M. rewrite S1. cbn [bind]. exact D1.
  - split; [lia|]. split; [exact M256|]. split; [exact FM|]. split; [exact HM|].
    intros i l Hi. destruct (D3 i l Hi) as [E1 E2]. split; [exact E1|]. intros P. split; [|apply CP; exact Hi].
    apply E2; [exact P|]. apply S3.
    assert (In l clen) by (eapply nth_error_In; eauto). rewrite Forall_forall in FM. specialize (FM l H). lia.
Qed.

Lemma be_bits_prefix : forall k m c d, k <= m -> is_prefix (be_bits k c) (be_bits m d) ->
  (c < 2 ^ N.of_nat k)%N -> (d < 2 ^ N.of_nat m)%N -> c = (d / 2 ^ N.of_nat (m - k))%N.
Proof.
  intros k m c d H [t E] Hc Hd.
  assert (LT : length t = m - k).
  { apply (f_equal (@length bool)) in E. rewrite app_length, !be_bits_length in E. lia. }
  assert (V : be_val (be_bits k c ++ t) = d) by (rewrite <- E; apply be_bits_val; exact Hd).
  rewrite be_val_app in V. rewrite be_bits_val in V by exact Hc.
  rewrite LT in V. assert (B : (be_val t < 2 ^ N.of_nat (m - k))%N) by (rewrite <- LT; apply be_val_bound).
  rewrite <- V. rewrite N.div_add_l by (pose proof (pow2_pos (N.of_nat (m - k))); lia).
  rewrite N.div_small by exact B. lia.
Qed.

Lemma canonical_all : forall clen, length clen = 256 -> Forall (fun l => (l < 256)%N) clen -> codeTable clen ->
  exists codes, computeHuffmanCodes clen = Ok codes /\ length codes = 256 /\
    (forall i l c, nth_error clen i = Some l -> nth_error codes i = Some c ->
       (l = 0 -> c = 0)%N /\ (c < 256)%N /\ ((0 < l)%N -> (c < 2 ^ l)%N)) /\
    forall i j li lj ci cj, nth_error clen i = Some li -> nth_error clen j = Some lj ->
      nth_error codes i = Some ci -> nth_error codes j = Some cj -> (0 < li)%N -> (0 < lj)%N ->
      (i <> j -> ~ is_prefix (be_bits (N.to_nat li) ci) (be_bits (N.to_nat lj) cj)) /\
      (li = lj -> i < j -> (ci < cj)%N) /\
      (li = lj -> i < j -> (forall k, i < k < j -> nth_error clen k <> Some li) -> cj = (ci + 1)%N) /\
      (li < lj -> cj / 2 ^ (lj - li) < ci)%N.
Proof.
  intros clen L F T.
  destruct (computeHuffmanCodes_spec clen L F T) as (M & codes & A & B & M256 & FM & HM & S).
  exists codes. split; [exact A|]. split; [exact B|]. split.
  - intros i l c Hl Hc. destruct (S i l Hl) as [S1 S2].
    destruct (N.eq_dec l 0) as [->|NZ].
    + rewrite (S1 eq_refl) in Hc. injection Hc as <-. repeat split; lia.
    + destruct (S2 ltac:(lia)) as [S3 S4]. rewrite S3 in Hc. injection Hc as <-.
      assert (l <= N.of_nat M)%N.
      { rewrite Forall_forall in FM. specialize (FM l (nth_error_In _ _ Hl)). lia. }
      pose proof (first_fits M clen T FM HM (N.to_nat l) ltac:(lia)) as G1.
      pose proof (first_small M clen T FM HM (N.to_nat l) ltac:(lia)) as G2.
      rewrite N2Nat.id in G1. repeat split; try lia.
  - intros i j li lj ci cj Hli Hlj Hci Hcj Pi Pj.
    destruct (S i li Hli) as [_ S1]. destruct (S1 Pi) as [S2 S3]. rewrite S2 in Hci. injection Hci as <-.
    destruct (S j lj Hlj) as [_ S4]. destruct (S4 Pj) as [S5 S6]. rewrite S5 in Hcj. injection Hcj as <-.
    assert (Bi : N.to_nat li <= M) by (rewrite Forall_forall in FM; apply FM; eapply nth_error_In; eauto).
    assert (Bj : N.to_nat lj <= M) by (rewrite Forall_forall in FM; apply FM; eapply nth_error_In; eauto).
    assert (SAME : forall a b l, a < b -> nth_error clen a = Some l ->
      cnt (firstn b clen) (N.to_nat l) = cnt (firstn a clen) (N.to_nat l) + 1 +
        cnt (firstn (b - a - 1) (skipn (Datatypes.S a) clen)) (N.to_nat l)).
    { intros a b l Hab Hl. rewrite (cnt_split clen a b l ltac:(lia) Hl).
      assert (E : skipn a clen = l :: skipn (Datatypes.S a) clen).
      { clear - Hl. revert a Hl. induction clen as [|x r IH]; intros [|a] Hl; try discriminate.
        - cbn in Hl. injection Hl as ->. reflexivity.
        - cbn [skipn]. rewrite (IH a Hl). reflexivity. }
      rewrite E. replace (b - a) with (Datatypes.S (b - a - 1)) by lia. cbn [firstn]. rewrite cnt_cons.
      replace (l =? N.of_nat (N.to_nat l))%N with true by lia. 
      replace (Datatypes.S (b - a - 1) - 1) with (b - a - 1) by lia. lia. }
    assert (ORD : forall a b x y, (a < b)%N -> N.to_nat b <= M -> (0 < a)%N -> x < cnt clen (N.to_nat b) ->
      ((first M clen (N.to_nat b) + N.of_nat x) / 2 ^ (b - a) < first M clen (N.to_nat a) + N.of_nat y)%N).
    { intros a b x y Hab Hb Ha Hx.
      pose proof (first_order M clen T FM HM (N.to_nat b) (N.to_nat a)
        (first M clen (N.to_nat b) + N.of_nat x)%N ltac:(lia) Hb ltac:(lia)) as Q.
      replace (N.of_nat (N.to_nat b - N.to_nat a)) with (b - a)%N in Q by lia. lia. }
    split; [|split; [|split]].
    + intros NE PR.
      pose proof (first_fits M clen T FM HM (N.to_nat li) ltac:(lia)) as G1.
      pose proof (first_fits M clen T FM HM (N.to_nat lj) ltac:(lia)) as G2.
      assert (LE : N.to_nat li <= N.to_nat lj).
      { destruct PR as [t E]. apply (f_equal (@length bool)) in E. rewrite app_length, !be_bits_length in E. lia. }
      apply be_bits_prefix in PR; [|exact LE|lia|lia].
      destruct (N.eq_dec li lj) as [->|NE2].
      * rewrite Nat.sub_diag in PR. change (2 ^ N.of_nat 0)%N with 1%N in PR. rewrite N.div_1_r in PR.
        assert (i < j \/ j < i) as [LT|LT] by lia.
        -- specialize (SAME i j lj LT Hli). lia.
        -- specialize (SAME j i lj LT Hlj). lia.
      * specialize (ORD li lj (cnt (firstn j clen) (N.to_nat lj)) (cnt (firstn i clen) (N.to_nat li)) ltac:(lia) Bj Pi S6).
        replace (N.of_nat (N.to_nat lj - N.to_nat li)) with (lj - li)%N in PR by lia. lia.
    + intros -> LT. specialize (SAME i j lj LT Hli). lia.
    + intros -> LT NB. specialize (SAME i j lj LT Hli).
      assert (Z : cnt (firstn (j - i - 1) (skipn (Datatypes.S i) clen)) (N.to_nat lj) = 0); [|lia].
      unfold cnt. destruct (filter _ _) as [|y t] eqn:E; [reflexivity|]. exfalso.
      assert (In y (filter (fun l => (l =? N.of_nat (N.to_nat lj))%N) (firstn (j - i - 1) (skipn (Datatypes.S i) clen))))
        as Hy by (rewrite E; left; reflexivity).
      apply filter_In in Hy. destruct Hy as [Hy Ey]. assert (y = lj) as -> by lia.
      destruct (In_nth_error _ _ Hy) as [k Hk].
      pose proof (nth_error_bound _ _ _ Hk) as BK. rewrite firstn_length in BK.
      apply (NB (Datatypes.S i + k)); [lia|].
      assert (G : nth_error (skipn (Datatypes.S i) clen) k = Some lj).
      { rewrite <- (firstn_skipn (j - i - 1) (skipn (Datatypes.S i) clen)).
        rewrite nth_error_app1 by (rewrite firstn_length; lia). exact Hk. }
      rewrite <- G. clear. generalize (Datatypes.S i) as a. induction clen as [|x r IH]; intros [|a]; auto.
      * destruct k; reflexivity.
      * cbn [Nat.add nth_error skipn]. apply IH.
    + intros LT. apply ORD; auto.
Qed.

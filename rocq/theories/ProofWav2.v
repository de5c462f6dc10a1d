(** Prefix codes assigned from sorted lengths: the tree and its codes. *)
From Coq Require Import List NArith Arith Bool Lia Sorted Permutation.
From Coq Require Import ZifyBool ZifyNat ZifyN.
From Verif Require Import Base ModelUtils ModelHuffman ModelWavelet SpecHuffman ProofHuffman3.
Import ListNotations.
Open Scope N_scope.

(** A tree in which every inner node has two children and exactly the leaves have symbols. *)
Inductive full : wtree -> Prop :=
| full_leaf : forall s, full (leaf s)
| full_inner : forall l r, full l -> full r -> full (inner l r).

(** (depth, symbol) of the leaves from left to right. *)
Fixpoint leavesOf (t : wtree) (d : N) : list (N * N) :=
  match t with
  | Empty => []
  | Branch _ Empty Empty => match symbolOf t with Some s => [(d, s)] | None => [] end
  | Branch _ l r => leavesOf l (d + 1) ++ leavesOf r (d + 1)
  end.

Lemma full_nonempty : forall t, full t -> exists v l r, t = Branch v l r.
Proof. intros t [s|l r _ _]; unfold leaf, inner; eauto. Qed.

Lemma leavesOf_inner : forall l r d, full l -> full r -> leavesOf (inner l r) d = leavesOf l (d + 1) ++ leavesOf r (d + 1).
Proof.
  intros l r d Hl Hr. destruct (full_nonempty _ Hl) as (v & a & b & ->). reflexivity.
Qed.

Definition mass (H : nat) (L : list (N * N)) : N := kraft H (map (fun p => N.to_nat (fst p)) L).
Lemma mass_app : forall H a b, mass H (a ++ b) = mass H a + mass H b.
Proof. intros. unfold mass. rewrite map_app. apply kraft_app. Qed.
Lemma mass_cons : forall H p a, mass H (p :: a) = 2 ^ N.of_nat (H - N.to_nat (fst p)) + mass H a.
Proof. intros. reflexivity. Qed.

Definition len_le (p q : N * N) : Prop := fst p <= fst q.

Lemma sorted_app_r : forall {A} (R : A -> A -> Prop) a b, StronglySorted R (a ++ b) -> StronglySorted R b.
Proof. induction a as [|x a IH]; intros b Hs; [exact Hs|]. apply IH. inversion Hs; assumption. Qed.
Lemma sorted_app_l : forall {A} (R : A -> A -> Prop) a b, StronglySorted R (a ++ b) -> StronglySorted R a.
Proof.
  induction a as [|x a IH]; intros b Hs; [constructor|]. inversion Hs; subst. constructor; [eapply IH; eassumption|].
  apply Forall_app in H2. tauto.
Qed.

Lemma half_N : forall H b : nat, (b < H)%nat -> 2 ^ N.of_nat (H - b) = 2 * 2 ^ N.of_nat (H - S b).
Proof. intros H b Hb. apply half_level. lia. Qed.

Lemma pow_pos : forall k, 0 < 2 ^ k.
Proof. intros k. apply N.neq_0_lt_0, N.pow_nonzero. lia. Qed.

Lemma assign_spec : forall H : nat, N.of_nat H < two64 -> forall fuel,
  (forall L bits, StronglySorted len_le L -> Forall (fun p => bits < fst p /\ (N.to_nat (fst p) <= H)%nat) L ->
     2 ^ N.of_nat (H - N.to_nat bits) <= mass H L -> (N.to_nat bits <= H)%nat -> (length L + H - N.to_nat bits <= fuel)%nat ->
     exists l r L1 L2, L = L1 ++ L2 /\ assignFrom fuel Empty L bits = Ok (inner l r, L2) /\ full l /\ full r /\
       leavesOf (inner l r) bits = L1 /\ mass H L1 = 2 ^ N.of_nat (H - N.to_nat bits)) /\
  (forall L bits s, StronglySorted len_le L -> Forall (fun p => bits < fst p /\ (N.to_nat (fst p) <= H)%nat) L ->
     2 ^ N.of_nat (H - S (N.to_nat bits)) <= mass H L -> (N.to_nat bits < H)%nat -> (length L + H - N.to_nat bits <= fuel)%nat ->
     exists r L1 L2, L = L1 ++ L2 /\ assignFrom fuel (leaf s) L bits = Ok (inner (leaf s) r, L2) /\ full r /\
       leavesOf r (bits + 1) = L1 /\ mass H L1 = 2 ^ N.of_nat (H - S (N.to_nat bits))).
Proof.
  intros H HH. induction fuel as [|f [IHA IHB]]; (split; [intros L bits Hs HF Hm Hb Hf|intros L bits s Hs HF Hm Hb Hf]).
  - destruct L as [|p L]; [unfold mass in Hm; cbn in Hm; pose proof (pow_pos (N.of_nat (H - N.to_nat bits))); lia|].
    cbn [length] in Hf. lia.
  - destruct L as [|p L]; [unfold mass in Hm; cbn in Hm; pose proof (pow_pos (N.of_nat (H - S (N.to_nat bits)))); lia|].
    cbn [length] in Hf. lia.
  - destruct L as [|[len sym] L]; [unfold mass in Hm; cbn in Hm; pose proof (pow_pos (N.of_nat (H - N.to_nat bits))); lia|].
    pose proof HF as HF0. inversion HF as [|? ? [Hlo Hhi] HF']; subst. cbn [fst] in *.
    pose proof Hs as Hs0. inversion Hs as [|? ? Hs' Hall]; subst.
    cbn [assignFrom]. replace ((len + two64 - 1) mod two64) with (len - 1).
    2:{ replace (len + two64 - 1) with (len - 1 + 1 * two64) by lia. rewrite N.mod_add by (unfold two64; lia).
        rewrite N.mod_small by lia. reflexivity. }
    destruct (N.eqb_spec bits (len - 1)) as [E|NE].
    + rewrite mass_cons in Hm. cbn [fst] in Hm.
      assert (E2 : N.to_nat len = S (N.to_nat bits)) by lia. rewrite E2 in Hm.
      pose proof (half_N H (N.to_nat bits) ltac:(lia)) as HN.
      destruct (IHB L bits sym Hs' HF') as (r & L1 & L2 & EL & EA & Fr & ELv & EM); [lia|lia|cbn [length] in Hf; lia|].
      exists (leaf sym), r, ((len, sym) :: L1), L2. split; [cbn; rewrite EL; reflexivity|]. split; [exact EA|].
      split; [constructor|]. split; [exact Fr|]. split.
      * rewrite leavesOf_inner by (exact Fr || constructor). rewrite ELv. cbn.
        replace (bits + 1) with len by lia. reflexivity.
      * rewrite mass_cons. cbn [fst]. rewrite E2, EM. lia.
    + destruct (N.ltb_spec bits (len - 1)) as [LT|GE]; [|lia].
      pose proof (half_N H (N.to_nat bits) ltac:(lia)) as HN.
      assert (HF1 : Forall (fun p => bits + 1 < fst p /\ (N.to_nat (fst p) <= H)%nat) ((len, sym) :: L)).
      { constructor; [cbn; lia|]. rewrite Forall_forall in *. intros q Hq. specialize (Hall q Hq).
        specialize (HF' q Hq). unfold len_le in Hall. cbn in Hall. lia. }
      destruct (IHA ((len, sym) :: L) (bits + 1) Hs0 HF1) as (l & lr & L1 & L2 & EL & EA & F1 & F2 & ELv & EM);
        [replace (N.to_nat (bits + 1)) with (S (N.to_nat bits)) by lia; lia|lia|lia|].
      replace (N.to_nat (bits + 1)) with (S (N.to_nat bits)) in EM by lia.
      rewrite EA. cbn [bind].
      assert (M2 : 2 ^ N.of_nat (H - S (N.to_nat bits)) <= mass H L2).
      { rewrite EL, mass_app, EM in Hm. lia. }
      destruct L2 as [|q L2]; [unfold mass in M2; cbn in M2; pose proof (pow_pos (N.of_nat (H - S (N.to_nat bits)))); lia|].
      assert (HF2 : Forall (fun p => bits + 1 < fst p /\ (N.to_nat (fst p) <= H)%nat) (q :: L2)).
      { rewrite EL in HF1. apply Forall_app in HF1. tauto. }
      destruct (IHA (q :: L2) (bits + 1)) as (l' & r' & L3 & L4 & EL' & EA' & F1' & F2' & ELv' & EM').
      * rewrite EL in Hs0. apply sorted_app_r in Hs0. exact Hs0.
      * exact HF2.
      * replace (N.to_nat (bits + 1)) with (S (N.to_nat bits)) by lia. exact M2.
      * lia.
      * assert (length ((len, sym) :: L) = length L1 + length (q :: L2))%nat by (rewrite EL, app_length; reflexivity). lia.
      * rewrite EA'. cbn [bind]. exists (inner l lr), (inner l' r'), (L1 ++ L3), L4.
        split; [rewrite EL, EL', app_assoc; reflexivity|]. split; [reflexivity|].
        split; [constructor; assumption|]. split; [constructor; assumption|].
        split; [rewrite leavesOf_inner by (constructor; assumption); rewrite ELv, ELv'; reflexivity|].
        rewrite mass_app, EM, EM'. replace (N.to_nat (bits + 1)) with (S (N.to_nat bits)) by lia. lia.
  - destruct L as [|[len sym] L]; [unfold mass in Hm; cbn in Hm; pose proof (pow_pos (N.of_nat (H - S (N.to_nat bits)))); lia|].
    pose proof HF as HF0. inversion HF as [|? ? [Hlo Hhi] HF']; subst. cbn [fst] in *.
    pose proof Hs as Hs0. inversion Hs as [|? ? Hs' Hall]; subst.
    cbn [assignFrom]. replace ((len + two64 - 1) mod two64) with (len - 1).
    2:{ replace (len + two64 - 1) with (len - 1 + 1 * two64) by lia. rewrite N.mod_add by (unfold two64; lia).
        rewrite N.mod_small by lia. reflexivity. }
    destruct (N.eqb_spec bits (len - 1)) as [E|NE].
    + exists (leaf sym), [(len, sym)], L. split; [reflexivity|]. split; [reflexivity|]. split; [constructor|].
      split; [cbn; replace (bits + 1) with len by lia; reflexivity|].
      unfold mass, kraft. cbn [map fold_right fst]. replace (N.to_nat len) with (S (N.to_nat bits)) by lia. lia.
    + destruct (N.ltb_spec bits (len - 1)) as [LT|GE]; [|lia].
      assert (HF1 : Forall (fun p => bits + 1 < fst p /\ (N.to_nat (fst p) <= H)%nat) ((len, sym) :: L)).
      { constructor; [cbn; lia|]. rewrite Forall_forall in *. intros q Hq. specialize (Hall q Hq).
        specialize (HF' q Hq). unfold len_le in Hall. cbn in Hall. lia. }
      unfold leaf at 1. cbn [bind].
      destruct (IHA ((len, sym) :: L) (bits + 1) Hs0 HF1) as (l & lr & L1 & L2 & EL & EA & F1 & F2 & ELv & EM);
        [replace (N.to_nat (bits + 1)) with (S (N.to_nat bits)) by lia; exact Hm|lia|lia|].
      rewrite EA. cbn [bind]. exists (inner l lr), L1, L2. split; [exact EL|]. split; [reflexivity|].
      split; [constructor; assumption|]. split; [exact ELv|].
      rewrite EM. do 2 f_equal. lia.
Qed.

Lemma mass_pos : forall H p L, 0 < mass H (p :: L).
Proof. intros. rewrite mass_cons. pose proof (pow_pos (N.of_nat (H - N.to_nat (fst p)))). lia. Qed.

Lemma maxLength_acc : forall l a, a <= fold_left N.max l a /\ Forall (fun x => x <= fold_left N.max l a) l.
Proof.
  induction l as [|x l IH]; intros a; cbn [fold_left]; [split; [lia|constructor]|].
  destruct (IH (N.max a x)) as [A B]. split; [lia|]. constructor; [lia|exact B].
Qed.
Lemma maxLength_ge : forall l, Forall (fun x => x <= maxLength l) l.
Proof. intros l. apply maxLength_acc. Qed.

Definition natLengths (L : list (N * N)) : list nat := map (fun p => N.to_nat (fst p)) L.

Lemma assign_complete : forall L, StronglySorted len_le L -> Forall (fun p => 0 < fst p) L ->
  complete (natLengths L) -> maxLength (map fst L) < two64 ->
  exists l r, assignPrefixCodes L = Ok (inner l r) /\ full l /\ full r /\ leavesOf (inner l r) 0 = L.
Proof.
  intros L Hs HF HC HM. set (H := N.to_nat (maxLength (map fst L))).
  assert (HB : Forall (fun p => 0 < fst p /\ (N.to_nat (fst p) <= H)%nat) L).
  { pose proof (maxLength_ge (map fst L)) as G. rewrite Forall_forall in *. intros p Hp.
    specialize (HF p Hp). specialize (G (fst p) (in_map fst _ _ Hp)). unfold H. lia. }
  assert (EM : mass H L = 2 ^ N.of_nat H).
  { apply HC. unfold natLengths. rewrite Forall_map. eapply Forall_impl; [|exact HB]. cbn. intros; lia. }
  destruct (assign_spec H ltac:(lia) (length L + H)) as [A _].
  destruct (A L 0 Hs HB) as (l & r & L1 & L2 & EL & EA & Fl & Fr & ELv & EM1).
  - cbn [N.to_nat]. rewrite Nat.sub_0_r, EM. lia.
  - lia.
  - lia.
  - exists l, r. unfold assignPrefixCodes. fold H. rewrite EA. cbn [bind].
    split; [reflexivity|]. split; [exact Fl|]. split; [exact Fr|].
    rewrite ELv. destruct L2 as [|p L2]; [rewrite EL, app_nil_r; reflexivity|].
    exfalso. rewrite EL, mass_app, EM1 in EM. cbn [N.to_nat] in EM. rewrite Nat.sub_0_r in EM.
    pose proof (mass_pos H p L2). lia.
Qed.

Lemma assign_single : forall s, assignPrefixCodes [(1, s)] = Ok (inner (leaf s) Empty).
Proof. reflexivity. Qed.

(** ** The codes *)

Fixpoint pathsOf (t : wtree) (vec : list bool) : list (N * list bool) :=
  match t with
  | Empty => []
  | Branch _ Empty Empty => match symbolOf t with Some s => [(s, vec)] | None => [] end
  | Branch _ l r => pathsOf l (vec ++ [false]) ++ pathsOf r (vec ++ [true])
  end.

Lemma pathsOf_inner : forall l r vec, full l -> pathsOf (inner l r) vec = pathsOf l (vec ++ [false]) ++ pathsOf r (vec ++ [true]).
Proof. intros l r vec Hl. destruct (full_nonempty _ Hl) as (v & a & b & ->). reflexivity. Qed.

Lemma collect_full : forall t, full t -> forall vec, collectFrom t vec = Ok (pathsOf t vec).
Proof.
  induction 1 as [s|l r Hl IHl Hr IHr]; intros vec; [reflexivity|].
  rewrite pathsOf_inner by exact Hl.
  assert (E : collectFrom (inner l r) vec =
    (let! a := collectFrom l (vec ++ [false]) in let! b := collectFrom r (vec ++ [true]) in Ok (a ++ b))).
  { destruct (full_nonempty _ Hl) as (v & a & b & ->). reflexivity. }
  rewrite E, IHl, IHr. reflexivity.
Qed.

Lemma paths_leaves : forall t, full t -> forall vec,
  map (fun c => (N.of_nat (length (snd c)), fst c)) (pathsOf t vec) = leavesOf t (N.of_nat (length vec)).
Proof.
  induction 1 as [s|l r Hl IHl Hr IHr]; intros vec; [reflexivity|].
  rewrite pathsOf_inner, leavesOf_inner by assumption. rewrite map_app, IHl, IHr, !app_length. cbn [length].
  replace (N.of_nat (length vec + 1)) with (N.of_nat (length vec) + 1) by lia. reflexivity.
Qed.

Lemma look_nil_empty : forall {A} q, look (@Empty A) q = None.
Proof. induction q as [|b q IH]; [reflexivity|exact IH]. Qed.

Lemma paths_look : forall t, full t -> forall vec s c,
  In (s, c) (pathsOf t vec) <-> exists q, c = vec ++ q /\ look t q = Some (mkNode [] (Some s)).
Proof.
  induction 1 as [s0|l r Hl IHl Hr IHr]; intros vec s c.
  - cbn. split.
    + intros [E|[]]. injection E as -> ->. exists []. rewrite app_nil_r. split; reflexivity.
    + intros ([|b q] & -> & E); cbn in E.
      * left. rewrite app_nil_r. congruence.
      * destruct b; rewrite look_nil_empty in E; discriminate.
  - rewrite pathsOf_inner, in_app_iff, IHl, IHr by assumption. split.
    + intros [(q & -> & E)|(q & -> & E)]; [exists (false :: q)|exists (true :: q)]; rewrite <- app_assoc; split; (reflexivity || exact E).
    + intros ([|[|] q] & -> & E); cbn in E; [discriminate|right|left]; exists q; rewrite <- app_assoc; split; (reflexivity || exact E).
Qed.

(** What is used about a tree of characters and its codes. *)
Record code_tree (t : wtree) (codes : list (N * list bool)) : Prop := mkCodeTree {
  ct_empty : forall q n, look t q = Some n -> bitVector n = [];
  ct_root : look t [] = Some (mkNode [] None);
  ct_left : exists n, look t [false] = Some n;
  ct_leaf : forall q s b, look t q = Some (mkNode [] (Some s)) -> look t (q ++ [b]) = None;
  ct_up : forall q b n, look t (q ++ [b]) = Some n -> look t q = Some (mkNode [] None);
  ct_both : forall q b, q <> [] -> look t q = Some (mkNode [] None) -> exists n, look t (q ++ [b]) = Some n;
  ct_order : forall q s, look t (q ++ [true]) = Some (mkNode [] (Some s)) -> exists s', look t (q ++ [false]) = Some (mkNode [] (Some s'));
  ct_codes : forall s c, In (s, c) codes <-> look t c = Some (mkNode [] (Some s));
  ct_reach : forall q, look t q = Some (mkNode [] None) -> exists s c, In (s, q ++ c) codes
}.

Lemma full_look_empty : forall t, full t -> forall q n, look t q = Some n -> bitVector n = [].
Proof.
  induction 1 as [s|l r Hl IHl Hr IHr]; intros [|b q] n E; cbn in E; try (injection E as <-; reflexivity).
  - destruct b; rewrite look_nil_empty in E; discriminate.
  - destruct b; eauto.
Qed.
Lemma full_look_leaf : forall t, full t -> forall q s b, look t q = Some (mkNode [] (Some s)) -> look t (q ++ [b]) = None.
Proof.
  induction 1 as [s|l r Hl IHl Hr IHr]; intros [|c q] s' b E; cbn in E |- *; try discriminate.
  - destruct b; reflexivity.
  - destruct c; rewrite look_nil_empty in E; discriminate.
  - destruct c; eauto.
Qed.
Lemma full_look_up : forall t, full t -> forall q b n, look t (q ++ [b]) = Some n -> look t q = Some (mkNode [] None).
Proof.
  induction 1 as [s|l r Hl IHl Hr IHr]; intros [|c q] b n E; cbn in E |- *; try reflexivity.
  - destruct b; discriminate.
  - destruct c; rewrite look_nil_empty in E; discriminate.
  - destruct c; eauto.
Qed.
Lemma full_look_both : forall t, full t -> forall q b, look t q = Some (mkNode [] None) -> exists n, look t (q ++ [b]) = Some n.
Proof.
  induction 1 as [s|l r Hl IHl Hr IHr]; intros [|c q] b E; cbn in E |- *; try discriminate.
  - destruct c; rewrite look_nil_empty in E; discriminate.
  - destruct b; [destruct (full_nonempty _ Hr) as (v & x & y & ->); inversion Hr; cbn; eauto|].
    destruct (full_nonempty _ Hl) as (v & x & y & ->); inversion Hl; cbn; eauto.
  - destruct c; eauto.
Qed.
Lemma full_here : forall t, full t -> exists s, look t [] = Some (mkNode [] s).
Proof. intros t [s|l r Hl Hr]; cbn; eauto. Qed.
Lemma leavesOf_depth : forall t, full t -> forall d p, In p (leavesOf t d) -> d <= fst p.
Proof.
  induction 1 as [s|l r Hl IHl Hr IHr]; intros d p Hp.
  - cbn in Hp. destruct Hp as [<-|[]]. cbn. lia.
  - rewrite leavesOf_inner, in_app_iff in Hp by assumption.
    destruct Hp as [Hp|Hp]; [apply IHl in Hp|apply IHr in Hp]; lia.
Qed.
Lemma leavesOf_some : forall t, full t -> forall d, exists p, In p (leavesOf t d).
Proof.
  induction 1 as [s|l r Hl IHl Hr IHr]; intros d; [eexists; left; reflexivity|].
  destruct (IHl (d + 1)) as (p & Hp). exists p. rewrite leavesOf_inner, in_app_iff by assumption. tauto.
Qed.
Lemma sorted_before : forall {A} (R : A -> A -> Prop) a b x y, StronglySorted R (a ++ b) -> In x a -> In y b -> R x y.
Proof.
  induction a as [|z a IH]; intros b x y Hs Hx Hy; [destruct Hx|].
  inversion Hs; subst. destruct Hx as [->|Hx]; [|eauto].
  rewrite Forall_forall in *. apply H2, in_app_iff. tauto.
Qed.
Lemma full_look_order : forall t, full t -> forall d, StronglySorted len_le (leavesOf t d) -> forall q s,
  look t (q ++ [true]) = Some (mkNode [] (Some s)) -> exists s', look t (q ++ [false]) = Some (mkNode [] (Some s')).
Proof.
  induction 1 as [s|l r Hl IHl Hr IHr]; intros d Hs q s' E.
  - destruct q as [|[|] q]; cbn in E; [discriminate|rewrite look_nil_empty in E; discriminate..].
  - rewrite leavesOf_inner in Hs by assumption.
    destruct q as [|[|] q]; cbn in E |- *; [|eapply IHr; [eapply sorted_app_r; exact Hs|exact E]|eapply IHl; [eapply sorted_app_l; exact Hs|exact E]].
    destruct Hr as [sr|a b Ha Hb]; [|discriminate].
    destruct Hl as [sl|a b Ha Hb]; [eexists; reflexivity|exfalso].
    destruct (leavesOf_some _ Ha (d + 1 + 1)) as (p & Hp).
    assert (Q : len_le p (d + 1, sr)).
    { eapply sorted_before; [exact Hs| |left; reflexivity]. rewrite leavesOf_inner, in_app_iff by assumption. tauto. }
    apply leavesOf_depth in Hp; [|exact Ha]. unfold len_le in Q. cbn in Q. lia.
Qed.
Lemma full_reach : forall t, full t -> forall q n, look t q = Some n -> exists s c, look t (q ++ c) = Some (mkNode [] (Some s)).
Proof.
  induction 1 as [s|l r Hl IHl Hr IHr]; intros [|b q] n E.
  - exists s, []. reflexivity.
  - cbn in E. destruct b; rewrite look_nil_empty in E; discriminate.
  - destruct (full_here _ Hl) as (sy & El). destruct (IHl [] _ El) as (s & c & Ec). exists s, (false :: c). exact Ec.
  - cbn in E. destruct b; [destruct (IHr _ _ E) as (s & c & Ec)|destruct (IHl _ _ E) as (s & c & Ec)]; exists s, c; exact Ec.
Qed.

Lemma full_code_tree : forall l r, full l -> full r -> StronglySorted len_le (leavesOf (inner l r) 0) ->
  code_tree (inner l r) (pathsOf (inner l r) []).
Proof.
  intros l r Hl Hr Hs. assert (F : full (inner l r)) by (constructor; assumption).
  assert (HC : forall s c, In (s, c) (pathsOf (inner l r) []) <-> look (inner l r) c = Some (mkNode [] (Some s))).
  { intros s c. rewrite (paths_look _ F). split; [intros (q & -> & E); exact E|intros E; exists c; split; [reflexivity|exact E]]. }
  constructor.
  - apply full_look_empty, F.
  - reflexivity.
  - destruct (full_here _ Hl) as (s & E). exists (mkNode [] s). exact E.
  - apply full_look_leaf, F.
  - apply full_look_up, F.
  - intros q b _. apply full_look_both, F.
  - eapply full_look_order; [exact F|exact Hs].
  - exact HC.
  - intros q E. destruct (full_reach _ F _ _ E) as (s & c & Ec). exists s, c. apply HC, Ec.
Qed.

Lemma single_code_tree : forall s, code_tree (inner (leaf s) Empty) [(s, [false])].
Proof.
  intros s.
  assert (HL : forall q n, look (inner (leaf s) Empty) q = Some n ->
             (q = [] /\ n = mkNode [] None) \/ (q = [false] /\ n = mkNode [] (Some s))).
  { intros [|[|] [|b q]] n E; cbn in E; try (destruct b); rewrite ?look_nil_empty in E; try discriminate; injection E as <-; auto. }
  constructor.
  - intros q n E. apply HL in E as [[_ ->]|[_ ->]]; reflexivity.
  - reflexivity.
  - eexists. reflexivity.
  - intros q s' b E. apply HL in E as [[-> E]|[-> E]]; [discriminate|]. destruct b; reflexivity.
  - intros q b n E. apply HL in E as [[E _]|[E _]]; [destruct q; discriminate|].
    destruct q as [|x q]; [reflexivity|destruct q; discriminate].
  - intros q b Hq E. apply HL in E as [[-> _]|[_ E]]; [congruence|discriminate].
  - intros q s' E. apply HL in E as [[E _]|[E _]]; [destruct q; discriminate|].
    destruct q as [|x q]; [discriminate|destruct q; discriminate].
  - intros s' c. split; [intros [E|[]]; injection E as <- <-; reflexivity|].
    intros E. apply HL in E as [[_ E]|[-> E]]; [discriminate|]. injection E as ->. left. reflexivity.
  - intros q E. apply HL in E as [[-> _]|[_ E]]; [|discriminate]. exists s, [false]. left. reflexivity.
Qed.

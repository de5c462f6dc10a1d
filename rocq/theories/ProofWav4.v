(** Words stored in the tree: every node holds the next bits of the words passing it. *)
From Coq Require Import List NArith Arith Bool Lia Sorted Permutation.
From Coq Require Import ZifyBool ZifyNat ZifyN.
From Verif Require Import Base Arrays ModelUtils ModelHuffman ModelWavelet ProofWav2.
Import ListNotations.
Open Scope nat_scope.

(** ** Words and their remainders *)
Definition tailsOf (b : bool) (ws : list (list bool)) : list (list bool) :=
  flat_map (fun w => match w with [] => [] | c :: r => if Bool.eqb b c then [r] else [] end) ws.
Definition heads (ws : list (list bool)) : list bool :=
  flat_map (fun w => match w with [] => [] | c :: _ => [c] end) ws.
(** What is left of the words beginning with [p]. *)
Fixpoint ends (p : list bool) (ws : list (list bool)) : list (list bool) :=
  match p with [] => ws | b :: p => ends p (tailsOf b ws) end.

Lemma ends_app : forall p q ws, ends (p ++ q) ws = ends q (ends p ws).
Proof. induction p as [|b p IH]; intros q ws; [reflexivity|]. cbn [app ends]. apply IH. Qed.
Lemma ends_snoc : forall p b ws, ends (p ++ [b]) ws = tailsOf b (ends p ws).
Proof. intros. rewrite ends_app. reflexivity. Qed.
Lemma tailsOf_app : forall b a c, tailsOf b (a ++ c) = tailsOf b a ++ tailsOf b c.
Proof. intros. unfold tailsOf. apply flat_map_app. Qed.
Lemma heads_app : forall a c, heads (a ++ c) = heads a ++ heads c.
Proof. intros. unfold heads. apply flat_map_app. Qed.
Lemma ends_words : forall p a c, ends p (a ++ c) = ends p a ++ ends p c.
Proof. induction p as [|b p IH]; intros a c; [reflexivity|]. cbn [ends]. rewrite tailsOf_app. apply IH. Qed.
Lemma tailsOf_in : forall b ws s, In s (tailsOf b ws) <-> In (b :: s) ws.
Proof.
  intros b ws s. unfold tailsOf. rewrite in_flat_map. split.
  - intros ([|c r] & H1 & H2); [destruct H2|]. destruct (Bool.eqb b c) eqn:E; [|destruct H2].
    apply Bool.eqb_prop in E. destruct H2 as [<-|[]]. subst. exact H1.
  - intros H. exists (b :: s). split; [exact H|]. rewrite Bool.eqb_reflx. left. reflexivity.
Qed.
Lemma ends_in : forall p ws s, In s (ends p ws) <-> In (p ++ s) ws.
Proof.
  induction p as [|b p IH]; intros ws s; [reflexivity|]. cbn [ends app]. rewrite IH. apply tailsOf_in.
Qed.
Lemma ends_nil : forall p, ends p [] = [].
Proof. induction p as [|b p IH]; [reflexivity|exact IH]. Qed.

Definition proper (ws : list (list bool)) : Prop := Forall (fun w => w <> []) ws.
Lemma heads_length : forall ws, proper ws -> length (heads ws) = length ws.
Proof.
  induction 1 as [|w ws Hw _ IH]; [reflexivity|]. destruct w as [|c r]; [contradiction|]. cbn. rewrite <- IH. reflexivity.
Qed.
Lemma tails_true : forall ws, length (tailsOf true ws) = ones (heads ws).
Proof.
  induction ws as [|[|[|] r] ws IH]; [reflexivity|exact IH|exact (f_equal S IH)|exact IH].
Qed.
Lemma tails_false : forall ws, proper ws -> length (tailsOf false ws) = length ws - ones (heads ws).
Proof.
  intros ws H. assert (G : length (tailsOf false ws) + ones (heads ws) = length ws); [|lia].
  induction H as [|w ws Hw _ IH]; [reflexivity|]. destruct w as [|[|] r]; [contradiction| |];
    [change (length (tailsOf false ws) + S (ones (heads ws)) = S (length ws))|change (S (length (tailsOf false ws)) + ones (heads ws) = S (length ws))]; lia.
Qed.

(** ** Looking into tries *)
Inductive dense {A} : trie A -> Prop :=
| dense_empty : dense Empty
| dense_branch : forall v l r, dense l -> dense r -> dense (Branch (Some v) l r).

Lemma full_dense : forall t, full t -> dense t.
Proof. induction 1; unfold leaf, inner; repeat constructor; assumption. Qed.

Lemma dense_look : forall {A} (t : trie A), dense t -> look t [] = None -> t = Empty.
Proof. intros A t [|v l r _ _] E; [reflexivity|discriminate]. Qed.

Lemma look_app : forall {A} p (t : trie A) q, look t (p ++ q) = look (fold_left child p t) q.
Proof. induction p as [|b p IH]; intros t q; [reflexivity|]. cbn [app look fold_left]. apply IH. Qed.

Lemma look_put : forall {A} p (t : trie A) q x, look (put t p x) q = if list_eq_dec bool_dec p q then Some x else look t q.
Proof.
  induction p as [|b p IH]; intros t q x.
  - destruct q as [|c q]; cbn; [reflexivity|]. destruct c; reflexivity.
  - destruct q as [|c q]; cbn [put].
    + destruct b; reflexivity.
    + destruct (list_eq_dec bool_dec (b :: p) (c :: q)) as [E|NE].
      * injection E as <- <-. destruct b; cbn [look child]; rewrite IH; destruct (list_eq_dec bool_dec p p); congruence.
      * destruct b, c; cbn [look child]; try reflexivity; rewrite IH; destruct (list_eq_dec bool_dec p q); congruence.
Qed.
Lemma look_put_same : forall {A} p (t : trie A) x, look (put t p x) p = Some x.
Proof. intros. rewrite look_put. destruct (list_eq_dec bool_dec p p); congruence. Qed.
Lemma look_put_other : forall {A} p (t : trie A) q x, p <> q -> look (put t p x) q = look t q.
Proof. intros. rewrite look_put. destruct (list_eq_dec bool_dec p q); congruence. Qed.

Lemma dense_put : forall {A} p (t : trie A) x, dense t -> (forall q b r, p = q ++ b :: r -> look t q <> None) -> dense (put t p x).
Proof.
  induction p as [|b p IH]; intros t x D H.
  - cbn. destruct D; cbn; repeat constructor; assumption.
  - pose proof (H [] b p eq_refl) as H0. destruct D as [|v l r Dl Dr]; [cbn in H0; congruence|].
    cbn [put here child]. destruct b; constructor; auto; apply IH; auto; intros q c s ->; specialize (H (true :: q) c s eq_refl) + specialize (H (false :: q) c s eq_refl); exact H.
Qed.

Lemma look_height : forall {A} p (t : trie A), look t p <> None -> length p < height t.
Proof.
  induction p as [|b p IH]; intros t H; destruct t as [|v l r]; cbn in H |- *; try lia; try congruence.
  - exfalso. apply H. apply look_nil_empty.
  - destruct b; apply IH in H; lia.
Qed.

(** ** Storing a word *)
Definition bump (ss : list (list bool)) (x : N) (old : option node) : option node :=
  match ss with
  | [] => old
  | [] :: _ => match old with Some n => Some n | None => Some (mkNode [] (Some x)) end
  | (b :: _) :: _ => match old with Some n => Some (pushed n b) | None => Some (mkNode [b] None) end
  end.

Lemma ends_one_cons : forall c q b w, ends (c :: q) [b :: w] = if Bool.eqb c b then ends q [w] else [].
Proof. intros. cbn [ends tailsOf flat_map]. destruct (Bool.eqb c b); [reflexivity|apply ends_nil]. Qed.
Lemma ends_one_nil : forall c q, ends (c :: q) [[]] = [].
Proof. intros. cbn. apply ends_nil. Qed.

Lemma pushInteger_spec : forall bits t x, bits <> [] -> dense t -> t <> Empty ->
  exists t', pushInteger t bits x = Ok t' /\ dense t' /\ t' <> Empty /\ forall q, look t' q = bump (ends q [bits]) x (look t q).
Proof.
  induction bits as [|b r IH]; intros t x HB HD HE; [congruence|].
  destruct HD as [|n lt rt Dl Dr]; [congruence|]. cbn [pushInteger].
  set (next := if b then rt else lt).
  assert (Dn : dense next) by (unfold next; destruct b; assumption).
  assert (S : exists next', (match r with
        | [] => Ok (match next with Empty => leaf x | _ => next end)
        | _ => pushInteger (match next with Empty => inner Empty Empty | _ => next end) r x
        end) = Ok next' /\ dense next' /\ forall q, look next' q = bump (ends q [r]) x (look next q)).
  { destruct r as [|b' r].
    - eexists. split; [reflexivity|]. destruct Dn as [|nn nl nr Dnl Dnr].
      + split; [repeat constructor|]. intros [|c q]; [reflexivity|]. rewrite ends_one_nil. cbn. destruct c; reflexivity.
      + split; [constructor; assumption|]. intros [|c q]; [reflexivity|]. rewrite ends_one_nil. reflexivity.
    - destruct (IH (match next with Empty => inner Empty Empty | _ => next end) x) as (t' & E1 & E2 & E3 & E4).
      + discriminate.
      + destruct Dn; unfold inner; repeat constructor; assumption.
      + destruct Dn; unfold inner; discriminate.
      + exists t'. split; [exact E1|]. split; [exact E2|]. intros q. rewrite E4.
        destruct Dn as [|nn nl nr Dnl Dnr]; [|reflexivity]. destruct q as [|c q]; [reflexivity|].
        replace (look (inner Empty Empty) (c :: q)) with (@None node) by (destruct c; cbn; rewrite look_nil_empty; reflexivity).
        rewrite look_nil_empty. reflexivity. }
  destruct S as (next' & S1 & S2 & S3). rewrite S1. cbn [bind].
  eexists. split; [reflexivity|]. split; [destruct b; constructor; assumption|]. split; [destruct b; discriminate|].
  intros [|c q].
  - cbn. destruct b; reflexivity.
  - rewrite ends_one_cons. unfold next in S3. destruct b, c; cbn [Bool.eqb look child]; try apply S3; reflexivity.
Qed.

Lemma pushCharacter_spec : forall cc t ic x n, ic <> [] -> dense t -> look t cc = Some n -> symbol n <> None ->
  (forall q b r, cc = q ++ b :: r -> look t q <> None) ->
  exists t', pushCharacter t cc ic x = Ok t' /\ dense t' /\ t' <> Empty /\ forall q, look t' q = bump (ends q [cc ++ ic]) x (look t q).
Proof.
  induction cc as [|b r IH]; intros t ic x n HI HD HL HS HP.
  - destruct HD as [|n' lt rt Dl Dr]; [discriminate|]. cbn in HL. injection HL as ->. cbn [pushCharacter].
    destruct (symbol n); [|congruence].
    destruct (pushInteger_spec ic (Branch (Some n) lt rt) x HI) as (t' & E); [constructor; assumption|discriminate|].
    exists t'. exact E.
  - pose proof (HP [] b r eq_refl) as H0. destruct HD as [|n' lt rt Dl Dr]; [cbn in H0; congruence|].
    cbn [pushCharacter]. cbn [look child] in HL.
    destruct (IH (if b then rt else lt) ic x n) as (t' & E1 & E2 & E3 & E4); auto.
    { destruct b; assumption. }
    { intros q c s ->. specialize (HP (b :: q) c s eq_refl). exact HP. }
    unfold wtree in *. rewrite E1. cbn [bind]. eexists. split; [reflexivity|]. split; [destruct b; constructor; assumption|].
    split; [destruct b; discriminate|].
    intros [|c q].
    + cbn. destruct b; reflexivity.
    + cbn [app]. rewrite ends_one_cons. destruct b, c; cbn [Bool.eqb look child]; try apply E4; reflexivity.
Qed.

(** ** The tree after storing all words *)
Definition word := (list bool * N)%type.
Definition symOf (q : list bool) (ws : list word) : option N :=
  match find (fun w => if list_eq_dec bool_dec (fst w) q then true else false) ws with Some w => Some (snd w) | None => None end.
Definition stored (T0 : wtree) (ws : list word) (q : list bool) : option node :=
  let ss := ends q (map fst ws) in
  match look T0 q with
  | Some n => Some (mkNode (heads ss) (symbol n))
  | None => match ss with [] => None | _ => Some (mkNode (heads ss) (symOf q ws)) end
  end.

Lemma symOf_app : forall q a b, symOf q (a ++ b) = match symOf q a with Some x => Some x | None => symOf q b end.
Proof.
  intros q a b. unfold symOf. induction a as [|w a IH]; [reflexivity|]. cbn [app find].
  destruct (list_eq_dec bool_dec (fst w) q); [reflexivity|exact IH].
Qed.
Lemma ends_one : forall q w, ends q [w] = [] \/ exists s, w = q ++ s /\ ends q [w] = [s].
Proof.
  induction q as [|b q IH]; intros w; [right; exists w; auto|].
  destruct w as [|c w]; [left; cbn; apply ends_nil|]. rewrite ends_one_cons. destruct (Bool.eqb b c) eqn:E; [|left; reflexivity].
  apply Bool.eqb_prop in E. subst c. destruct (IH w) as [H|(s & -> & H)]; [left; exact H|right; exists s; auto].
Qed.
Lemma symOf_none : forall q ws, (forall x, ~ In (q, x) ws) -> symOf q ws = None.
Proof.
  intros q ws H. unfold symOf. induction ws as [|[w x] ws IH]; [reflexivity|]. cbn [find fst].
  destruct (list_eq_dec bool_dec w q) as [->|]; [exfalso; apply (H x); left; reflexivity|].
  apply IH. intros y Hy. apply (H y). right. exact Hy.
Qed.

(** Words of which none goes on behind another. *)
Definition noPrefix (ws : list (list bool)) : Prop := forall u s, In u ws -> In (u ++ s) ws -> s = [].

Lemma stored_step : forall T0 ws w x q, look T0 w = None -> noPrefix (map fst (ws ++ [(w, x)])) ->
  (forall n, look T0 q = Some n -> w <> q) ->
  bump (ends q [w]) x (stored T0 ws q) = stored T0 (ws ++ [(w, x)]) q.
Proof.
  intros T0 ws w x q HN HP HQ. unfold stored. rewrite map_app, ends_words. cbn [map fst].
  destruct (ends_one q w) as [->|(s & -> & ->)].
  - rewrite app_nil_r. cbn [bump]. destruct (look T0 q) as [n|]; [reflexivity|].
    destruct (ends q (map fst ws)) eqn:E; [reflexivity|]. f_equal. f_equal. rewrite symOf_app.
    destruct (symOf q ws) eqn:Es; [reflexivity|]. unfold symOf. cbn [find fst].
    destruct (list_eq_dec bool_dec w q) as [->|]; [|reflexivity]. exfalso.
    destruct l as [|b l].
    + assert (Hq : In q (map fst ws)).
      { rewrite <- (app_nil_r q). apply ends_in. rewrite E. left. reflexivity. }
      apply in_map_iff in Hq. destruct Hq as ([u y] & <- & Hu). cbn [fst] in *. clear - Es Hu.
      unfold symOf in Es. induction ws as [|[v z] ws IH]; [destruct Hu|]. cbn [find fst] in Es.
      destruct (list_eq_dec bool_dec v u) as [->|]; [discriminate|]. destruct Hu as [Hu|Hu]; [congruence|auto].
    + assert (b :: l = []); [|discriminate]. apply (HP q).
      * rewrite map_app. apply in_app_iff. right. left. reflexivity.
      * rewrite map_app. apply in_app_iff. left. apply ends_in. rewrite E. left. reflexivity.
  - destruct s as [|b s]; cbn [bump].
    + rewrite app_nil_r in *. destruct (look T0 q) as [n|] eqn:E; [exfalso; exact (HQ n eq_refl eq_refl)|].
      destruct (ends q (map fst ws)) as [|y ys] eqn:Ee; cbn [app].
      * unfold heads. cbn [flat_map]. cbn. f_equal. f_equal. rewrite symOf_app. rewrite symOf_none.
        { unfold symOf. cbn [find fst snd]. destruct (list_eq_dec bool_dec q q); [|congruence]. reflexivity. }
        intros y Hy. assert (C : In [] (ends q (map fst ws))).
        { apply ends_in. rewrite app_nil_r. apply in_map_iff. exists (q, y). auto. }
        rewrite Ee in C. destruct C.
      * assert (y = []).
        { apply (HP q); rewrite map_app; apply in_app_iff; [right; left; reflexivity|left; apply ends_in; rewrite Ee; left; reflexivity]. }
        subst y. f_equal. f_equal.
        { rewrite app_comm_cons, heads_app. cbn. rewrite app_nil_r. reflexivity. }
        rewrite symOf_app. destruct (symOf q ws) eqn:Es; [reflexivity|]. exfalso.
        assert (Hq : In q (map fst ws)).
        { rewrite <- (app_nil_r q). apply ends_in. rewrite Ee. left. reflexivity. }
        apply in_map_iff in Hq. destruct Hq as ([u y] & <- & Hu). cbn [fst] in *. clear - Es Hu.
        unfold symOf in Es. induction ws as [|[v z] ws IH]; [destruct Hu|]. cbn [find fst] in Es.
        destruct (list_eq_dec bool_dec v u) as [->|]; [discriminate|]. destruct Hu as [Hu|Hu]; [congruence|auto].
    + destruct (look T0 q) as [n|] eqn:E.
      * unfold pushed. cbn [bitVector symbol]. rewrite heads_app. reflexivity.
      * assert (SY : symOf q (ws ++ [(q ++ b :: s, x)]) = symOf q ws).
        { rewrite symOf_app. destruct (symOf q ws); [reflexivity|]. unfold symOf. cbn [find fst].
          destruct (list_eq_dec bool_dec (q ++ b :: s) q) as [C|]; [|reflexivity]. exfalso.
          apply (f_equal (@length bool)) in C. rewrite app_length in C. cbn in C. lia. }
        rewrite SY. destruct (ends q (map fst ws)) as [|y ys] eqn:Ee; cbn [app].
        { unfold heads. cbn [flat_map]. cbn. f_equal. f_equal. symmetry. apply symOf_none.
          intros y Hy. assert (C : In [] (ends q (map fst ws))).
          { apply ends_in. rewrite app_nil_r. apply in_map_iff. exists (q, y). auto. }
          rewrite Ee in C. destruct C. }
        { unfold pushed. cbn [bitVector symbol]. rewrite app_comm_cons, heads_app. reflexivity. }
Qed.

(** The words of the runs: the code of the byte and the one of the length. *)
Definition codesOK (T0 : wtree) (codes intCodes : list (N * list bool)) (W : N) (runs : list (N * nat)) (ws : list word) : Prop :=
  Forall2 (fun run w => exists cc ic, codeOf codes (fst run) = Some cc /\ integerCode intCodes W (N.of_nat (snd run)) = Ok ic /\
     fst w = cc ++ ic /\ snd w = N.of_nat (snd run) /\ ic <> [] /\
     (exists s, look T0 cc = Some (mkNode [] (Some s))) /\ look T0 (cc ++ ic) = None /\
     (forall q b r, cc = q ++ b :: r -> look T0 q <> None)) runs ws.

Lemma pushRuns_spec : forall T0 codes intCodes W runs ws, codesOK T0 codes intCodes W runs ws ->
  noPrefix (map fst ws) -> dense T0 -> T0 <> Empty -> (forall q n, look T0 q = Some n -> bitVector n = []) ->
  exists T, pushRuns codes intCodes W T0 runs = Ok T /\ dense T /\ forall q, look T q = stored T0 ws q.
Proof.
  intros T0 codes intCodes W runs ws HC HP HD HE HB.
  assert (G : forall runs done ws T, codesOK T0 codes intCodes W runs ws -> noPrefix (map fst (done ++ ws)) -> dense T ->
     (forall q, look T q = stored T0 done q) ->
     exists T', pushRuns codes intCodes W T runs = Ok T' /\ dense T' /\ forall q, look T' q = stored T0 (done ++ ws) q).
  { clear - HE. induction runs as [|run runs IH]; intros done ws T HC HP HD HT; inversion HC as [|? [w x] ? ws' H1 H2]; subst.
    - exists T. split; [reflexivity|]. rewrite app_nil_r. auto.
    - destruct H1 as (cc & ic & C1 & C2 & C3 & C4 & C5 & (s & C6) & C7 & C8). cbn [fst snd] in C3, C4. subst w x.
      cbn [pushRuns]. unfold pushRun. rewrite C1, C2. cbn [bind].
      assert (LT : forall q n, look T0 q = Some n -> exists bits, look T q = Some (mkNode bits (symbol n))).
      { intros q n E. rewrite HT. unfold stored. rewrite E. eauto. }
      destruct (LT _ _ C6) as (bits & Ebits).
      destruct (pushCharacter_spec cc T ic (N.of_nat (snd run)) _ C5 HD Ebits) as (T' & E1 & E2 & E3 & E4).
      { discriminate. }
      { intros q b r E. specialize (C8 q b r E). destruct (look T0 q) as [n|] eqn:En; [|congruence].
        destruct (LT _ _ En) as (bs & ->). discriminate. }
      rewrite E1. cbn [bind].
      replace (done ++ (cc ++ ic, N.of_nat (snd run)) :: ws') with ((done ++ [(cc ++ ic, N.of_nat (snd run))]) ++ ws') in *
        by (rewrite <- app_assoc; reflexivity).
      apply IH; auto. intros q. rewrite E4, HT. apply stored_step.
      + exact C7.
      + intros u v Hu Hv. apply (HP u); rewrite map_app; apply in_app_iff; left; assumption.
      + intros n En C. subst q. congruence. }
  apply (G runs [] ws T0 HC HP HD).
  intros q. unfold stored. cbn [map]. rewrite ends_nil. destruct (look T0 q) as [[bv sy]|] eqn:E; [|reflexivity].
  specialize (HB _ _ E). cbn [bitVector] in HB. subst bv. reflexivity.
Qed.

(** The replacement table and the rewriting of the text. *)
From Coq Require Import List NArith ZArith Lia Arith Bool Permutation.
From Coq Require Import ZifyBool ZifyNat ZifyN.
From Verif Require Import Base Arrays TArray ModelUtils ModelStreams ModelHeaders ProofUtils1 ModelGrammar SpecGrammar ProofGrammar3 ModelPairs
  ProofPairs1 ProofPairs2 ProofPairs3 ProofPairs4 ProofPairs5.
Import ListNotations.
Open Scope N_scope.

Definition hiOf (pr : N) : N := N.land (N.shiftr pr 8) 255.
Definition loOf (pr : N) : N := N.land pr 255.
Lemma hiOf_lt : forall pr, hiOf pr < 256.
Proof. intros. unfold hiOf. change 255 with (N.ones 8). rewrite N.land_ones. change (2 ^ 8) with 256. lia. Qed.
Lemma loOf_lt : forall pr, loOf pr < 256.
Proof. intros. unfold loOf. change 255 with (N.ones 8). rewrite N.land_ones. change (2 ^ 8) with 256. lia. Qed.
Lemma hiOf_pair : forall a b, a < 256 -> b < 256 -> hiOf (pair16 a b) = a.
Proof. intros a b Ha Hb. unfold hiOf. change (N.shiftr (pair16 a b) 8) with (hi16 (pair16 a b)). rewrite hi16_pair by exact Hb. change 255 with (N.ones 8). rewrite N.land_ones. apply N.mod_small. exact Ha. Qed.
Lemma loOf_pair : forall a b, b < 256 -> loOf (pair16 a b) = b.
Proof. intros a b Hb. apply (lo16_pair a b Hb). Qed.
Lemma pair_of : forall pr, pr < 65536 -> pair16 (hiOf pr) (loOf pr) = pr.
Proof.
  intros pr H. rewrite pair16_eq by apply loOf_lt. unfold hiOf, loOf. change 255 with (N.ones 8). rewrite !N.land_ones, N.shiftr_div_pow2. change (2 ^ 8) with 256. lia.
Qed.

(** ** Rules *)
Definition newRules (RR : list (N * N * N)) : list (sym * list sym) :=
  map (fun x => (One (snd x), [One (hiOf (snd (fst x))); One (loOf (snd (fst x)))])) RR.
Fixpoint ruleOf (RR : list (N * N * N)) (pr : N) : option N :=
  match RR with
  | [] => None
  | (_, q, r) :: RR => match ruleOf RR pr with Some x => Some x | None => if pr =? q then Some r else None end
  end.
Lemma ruleOf_in : forall RR pr r, ruleOf RR pr = Some r -> exists p, In (p, pr, r) RR.
Proof.
  induction RR as [|[[p q] r0] RR IH]; intros pr r H; cbn [ruleOf] in H; [discriminate|].
  destruct (ruleOf RR pr) as [x|] eqn:E.
  - injection H as ->. destruct (IH pr r E) as (p' & I). exists p'. right. exact I.
  - destruct (N.eqb_spec pr q) as [->|]; [|discriminate]. injection H as ->. exists p. left. reflexivity.
Qed.

Lemma layout_app : forall l m pos, layout pos (l ++ m) = layout pos l ++ layout (pos + length (concat (map snd l))) m.
Proof.
  induction l as [|[k sd] l IH]; intros m pos; cbn [layout app map concat snd]; [f_equal; cbn [length]; lia|].
  rewrite IH. do 3 f_equal. rewrite app_length. lia.
Qed.

Lemma addRules_ok : forall news common pairs repl g table g' table' rules w,
  addRules news common pairs repl g table = Ok (g', table') ->
  g_rules g = layout 0 (flat rules) -> g_rhs g = concat (map snd (flat rules)) -> weigh (g_freqs g) w ->
  (forall r, In r repl -> r < 256) ->
  let RR := combine pairs repl in
  length pairs = length repl /\
  g_rules g' = layout 0 (flat (rules ++ newRules RR)) /\ g_rhs g' = concat (map snd (flat (rules ++ newRules RR))) /\
  weigh (g_freqs g') (fun c => w c + cz (ruleBytes (newRules RR)) c)%Z /\
  g_new g' = (g_new g + length pairs)%nat /\ g_special g' = g_special g /\ g_variable g' = g_variable g /\
  g_specials g' = g_specials g /\ g_pairs g' = g_pairs g /\
  (forall r, In r repl -> r <> common /\ ~ In r news) /\
  t_len table' = t_len table /\
  (forall pr, tval table' pr = match ruleOf RR pr with Some r => pair16 r common | None => tval table pr end).
Proof.
  intros news common. induction pairs as [|[p pr] pairs IH]; intros [|r repl] g table g' table' rules w H HR HS HW HB RR; cbn [addRules] in H; try discriminate.
  - injection H as <- <-. unfold RR. cbn [combine newRules map ruleOf length In]. rewrite !app_nil_r. repeat split; auto; try contradiction; try lia; try apply HW.
    intros c Hc. unfold ruleBytes. cbn [map concat]. rewrite cz_nil, Z.add_0_r. apply HW. exact Hc.
  - bd H. destruct ((common =? r) || existsb (N.eqb r) news || a) eqn:EB; [discriminate|].
    apply orb_false_iff in EB. destruct EB as (EB & ->). apply orb_false_iff in EB. destruct EB as (B1 & B2).
    bd H. rename a into table1. bd H. rename a into g1.
    assert (Hr : r < 256) by (apply HB; left; reflexivity).
    unfold addRule in E1. fold (hiOf pr) (loOf pr) in E1.
    destruct (incr_weigh (g_freqs g) w (hiOf pr) HW (hiOf_lt pr)) as (f1 & F1 & W1). rewrite F1 in E1. cbn [bind] in E1.
    destruct (incr_weigh f1 _ (loOf pr) W1 (loOf_lt pr)) as (f2 & F2 & W2). rewrite F2 in E1. cbn [bind] in E1.
    destruct (incr_weigh f2 _ r W2 Hr) as (f3 & F3 & W3). rewrite F3 in E1. cbn [bind] in E1. injection E1 as <-.
    unfold tset in E0. destruct (pr <? t_len table) eqn:EL; [|discriminate]. injection E0 as <-.
    match type of W3 with weigh _ ?w3 => apply (IH repl _ _ _ _ (rules ++ [(One r, [One (hiOf pr); One (loOf pr)])]) w3) in H end; cbn [g_rules g_rhs g_freqs g_new g_special g_variable g_specials g_pairs] in *.
    2:{ unfold flat. rewrite map_app, layout_app. fold (flat rules). rewrite <- HR. cbn [map layout fst snd symVariable isTwo bytesOf concat symBytes app length].
        rewrite <- HS. reflexivity. }
    2:{ unfold flat. rewrite map_app, map_app, concat_app. fold (flat rules). rewrite <- HS. reflexivity. }
    2:{ exact W3. }
    2:{ intros x Hx. apply HB. right. exact Hx. }
    destruct H as (H1 & H2 & H3 & H4 & H5 & H6 & H7 & H8 & H9 & H10 & H11 & H12).
    unfold RR. cbn [combine]. cbn [newRules map snd fst]. fold (newRules (combine pairs repl)).
    rewrite <- app_assoc in H2, H3. cbn [app] in H2, H3. cbn [length].
    split; [lia|]. split; [exact H2|]. split; [exact H3|]. split.
    { eapply weigh_ext; [exact H4|]. intros c Hc. cbn beta. unfold ruleBytes. cbn [map concat fst snd symBytes bytesOf app]. rewrite !cz_cons. cbn [app]. lia. }
    split; [lia|]. split; [exact H6|]. split; [exact H7|]. split; [exact H8|]. split; [exact H9|]. split.
    { intros x [<-|Hx]; [|apply H10; exact Hx]. split; [lia|]. intros I. assert (existsb (N.eqb r) news = true); [|congruence].
      apply existsb_exists. exists r. split; [exact I|apply N.eqb_refl]. }
    split; [exact H11|]. intros x. rewrite H12. cbn [ruleOf]. destruct (ruleOf (combine pairs repl) x); [reflexivity|].
    rewrite tval_put. destruct (N.eqb_spec x pr); reflexivity.
Qed.

(** ** Rows of escaped symbols *)
Lemma fillRow_ok : forall common symbol special table, t_len table = 65536 -> symbol < 256 ->
  exists table', fillRow common symbol special table = Ok table' /\ t_len table' = 65536 /\
    forall a b, a < 256 -> b < 256 -> tval table' (pair16 a b) =
      if (a =? symbol) && (N.shiftr (tval table (pair16 a b)) 8 =? common) then special else tval table (pair16 a b).
Proof.
  intros common symbol special table HL Hs. unfold fillRow.
  destruct (forLoop_inv (fun j t => t_len t = 65536 /\ forall a b, a < 256 -> b < 256 -> tval t (pair16 a b) =
      if (a =? symbol) && (b <? j) && (N.shiftr (tval table (pair16 a b)) 8 =? common) then special else tval table (pair16 a b))
    (fun j table => let! v := tget table (pair16 symbol j) in
                    if N.shiftr v 8 =? common then tset table (pair16 symbol j) special else Ok table) 256 0 table) as (t' & E & L & F).
  - split; [exact HL|]. intros a b Ha Hb. destruct (N.ltb_spec b 0); [lia|]. rewrite andb_false_r. reflexivity.
  - intros j t Hj (L & F). rewrite tget_ok by (rewrite L; apply pair16_lt; lia). cbn [bind].
    rewrite (F symbol j Hs ltac:(lia)). rewrite N.eqb_refl, N.ltb_irrefl. cbn [andb].
    destruct (N.eqb_spec (N.shiftr (tval table (pair16 symbol j)) 8) common) as [Q|Q].
    + rewrite tset_ok by (rewrite L; apply pair16_lt; lia). eexists. split; [reflexivity|]. split; [rewrite tput_len; exact L|].
      intros a b Ha Hb. rewrite tval_put. destruct (N.eqb_spec (pair16 a b) (pair16 symbol j)) as [E|NE].
      * apply pair16_inj in E; [|exact Hb|lia]. destruct E as (-> & ->). rewrite N.eqb_refl. destruct (N.ltb_spec j (j + 1)); [|lia].
        rewrite Q, N.eqb_refl. reflexivity.
      * rewrite F by assumption. destruct (N.eqb_spec a symbol) as [->|]; [|reflexivity].
        assert (b <> j) by congruence. destruct (N.ltb_spec b j), (N.ltb_spec b (j + 1)); try lia; reflexivity.
    + exists t. split; [reflexivity|]. split; [exact L|]. intros a b Ha Hb. rewrite F by assumption.
      destruct (N.eqb_spec a symbol) as [->|]; [|reflexivity]. destruct (N.eqb_spec b j) as [->|].
      * rewrite N.ltb_irrefl. destruct (N.ltb_spec j (j + 1)); [|lia]. cbn [andb]. destruct (N.eqb_spec (N.shiftr (tval table (pair16 symbol j)) 8) common); [contradiction|reflexivity].
      * destruct (N.ltb_spec b j), (N.ltb_spec b (j + 1)); try lia; reflexivity.
  - exists t'. split; [exact E|]. split; [exact L|]. intros a b Ha Hb. rewrite F by assumption.
    destruct (N.ltb_spec b (0 + N.of_nat 256)); [|lia]. rewrite andb_true_r. reflexivity.
Qed.

Fixpoint assoc (l : list (N * N)) (c : N) : option N :=
  match l with [] => None | (x, v) :: l => if c =? x then Some v else assoc l c end.
Lemma assoc_nth : forall (l m : list N) i c, NoDup l -> nth_error l i = Some c -> length l = length m -> assoc (combine l m) c = nth_error m i.
Proof.
  induction l as [|x l IH]; intros [|y m] i c ND H HL; cbn [length] in HL; try lia; [destruct i; discriminate|].
  apply NoDup_cons_iff in ND. destruct ND as (N1 & N2). cbn [combine assoc]. destruct i as [|i]; cbn [nth_error] in *.
  - injection H as ->. rewrite N.eqb_refl. reflexivity.
  - destruct (N.eqb_spec c x) as [->|]; [|apply IH; auto]. exfalso. apply N1. eapply nth_error_In; eauto.
Qed.
Lemma assoc_none : forall (l m : list N) c, ~ In c l -> assoc (combine l m) c = None.
Proof.
  induction l as [|x l IH]; intros [|y m] c H; cbn [combine assoc]; auto. cbn [In] in H. destruct (N.eqb_spec c x) as [->|]; [tauto|]. apply IH. tauto.
Qed.

Lemma fillFreed_ok : forall common freed next table table', t_len table = 65536 -> (forall c, In c freed -> c < 256) ->
  fillFreed common freed next table = Ok table' ->
  length freed = length next /\ t_len table' = 65536 /\ (forall c, In c freed -> c <> common) /\
  (forall v, In v next -> N.shiftr v 8 <> common) /\
  forall a b, a < 256 -> b < 256 -> tval table' (pair16 a b) =
    if N.shiftr (tval table (pair16 a b)) 8 =? common then
      match assoc (combine freed next) a with Some v => v | None => tval table (pair16 a b) end
    else tval table (pair16 a b).
Proof.
  intros common. induction freed as [|c freed IH]; intros [|v next] table table' HL HB H; cbn [fillFreed] in H; try discriminate.
  - injection H as <-. split; [reflexivity|]. split; [exact HL|]. split; [intros c []|]. split; [intros v []|]. intros a b Ha Hb. cbn [combine assoc]. destruct (_ =? common); reflexivity.
  - destruct ((common =? c) || (N.shiftr v 8 =? common)) eqn:EB; [discriminate|]. apply orb_false_iff in EB. destruct EB as (B1 & B2).
    destruct (fillRow_ok common c v table HL) as (t1 & E1 & L1 & F1); [apply HB; left; reflexivity|]. rewrite E1 in H. cbn [bind] in H.
    apply IH in H; [|exact L1|intros x Hx; apply HB; right; exact Hx]. destruct H as (H1 & H2 & H3 & H4 & H5).
    split; [cbn [length]; lia|]. split; [exact H2|]. split; [intros x [<-|Hx]; [lia|apply H3; exact Hx]|].
    split; [intros x [<-|Hx]; [lia|apply H4; exact Hx]|].
    intros a b Ha Hb. rewrite H5, F1 by assumption. cbn [combine assoc]. destruct (N.eqb_spec a c) as [->|NE]; cbn [andb]; [|reflexivity].
    destruct (N.eqb_spec (N.shiftr (tval table (pair16 c b)) 8) common) as [Q|Q].
    + rewrite B2. reflexivity.
    + destruct (N.eqb_spec (N.shiftr (tval table (pair16 c b)) 8) common); [contradiction|reflexivity].
Qed.
Lemma fillSpecials_ok : forall common news table table', t_len table = 65536 -> (forall c, In c news -> c < 256) ->
  fillSpecials common news table = Ok table' ->
  t_len table' = 65536 /\ (forall c, In c news -> c <> common) /\
  forall a b, a < 256 -> b < 256 -> tval table' (pair16 a b) =
    if (N.shiftr (tval table (pair16 a b)) 8 =? common) && existsb (N.eqb a) news then pair16 a a else tval table (pair16 a b).
Proof.
  intros common. induction news as [|c news IH]; intros table table' HL HB H; cbn [fillSpecials] in H.
  - injection H as <-. split; [exact HL|]. split; [intros c []|]. intros a b Ha Hb. cbn [existsb]. rewrite andb_false_r. reflexivity.
  - destruct (common =? c) eqn:B1; [discriminate|]. assert (Hc : c < 256) by (apply HB; left; reflexivity).
    destruct (fillRow_ok common c (pair16 c c) table HL Hc) as (t1 & E1 & L1 & F1). rewrite E1 in H. cbn [bind] in H.
    apply IH in H; [|exact L1|intros x Hx; apply HB; right; exact Hx]. destruct H as (H2 & H3 & H5).
    split; [exact H2|]. split; [intros x [<-|Hx]; [lia|apply H3; exact Hx]|].
    intros a b Ha Hb. rewrite H5, F1 by assumption. cbn [existsb]. destruct (N.eqb_spec a c) as [->|NE]; cbn [andb orb]; [|reflexivity].
    destruct (N.eqb_spec (N.shiftr (tval table (pair16 c b)) 8) common) as [Q|Q].
    + change (N.shiftr (pair16 c c) 8) with (hi16 (pair16 c c)). rewrite hi16_pair by exact Hc. destruct (N.eqb_spec c common); [lia|]. reflexivity.
    + destruct (N.eqb_spec (N.shiftr (tval table (pair16 c b)) 8) common); [contradiction|reflexivity].
Qed.

(** ** Rewriting *)
Section Rewrite.
Variables (esc : N -> option (N * N)) (rule : N -> N -> option N) (common : N) (table : tarray N) (sp : N -> bool).

Fixpoint rw (ks : list sym) : list sym :=
  match ks with
  | [] => []
  | k :: rest =>
    match k, rest with
    | One a, One b :: rest' =>
      match rule a b with Some r => One r :: rw rest' | None => tr esc k :: rw rest end
    | _, _ => tr esc k :: rw rest
    end
  end.

Definition tokOk (k : sym) : Prop :=
  match k with One c => c < 256 /\ sp c = false | Two a b => a < 256 /\ b < 256 /\ sp a = true /\ sp b = true end.

Hypothesis HL : t_len table = 65536.
Hypothesis HC : common < 256.
Hypothesis HV : forall a b, a < 256 -> b < 256 -> tval table (pair16 a b) =
  match rule a b with
  | Some r => pair16 r common
  | None => match esc a with Some (x, y) => pair16 x y | None => pair16 common common end
  end.
Hypothesis HR : forall a b r, a < 256 -> b < 256 -> rule a b = Some r -> r < 256 /\ r <> common /\ sp a = false /\ sp b = false.
Hypothesis HE : forall a x y, a < 256 -> esc a = Some (x, y) -> x < 256 /\ y < 256 /\ x <> common /\ y <> common /\ sp a = false.
Hypothesis H0 : forall a r, a < 256 -> rule a 0 = Some r -> esc a = None.

Definition finish (c : N) : outcome (list N) :=
  let! v := tget table (pair16 c 0) in
  Ok (if lo16 v =? common then [c] else [hi16 v; lo16 v]).
Definition go (prev : N) (src : list N) : outcome (list N) :=
  match src with [] => finish prev | _ => replaceLoop common table prev src end.

Lemma replaceLoop_go : forall prev c rest, replaceLoop common table prev (c :: rest) =
  (let! v := tget table (pair16 prev c) in
   if v =? pair16 common common then let! l := go c rest in Ok (prev :: l)
   else if lo16 v =? common then
     match rest with [] => Ok [hi16 v] | d :: rest' => let! l := go d rest' in Ok (hi16 v :: l) end
   else let! l := go c rest in Ok (hi16 v :: lo16 v :: l)).
Proof.
  intros prev c rest. cbn [replaceLoop]. fold (finish c). destruct (tget table (pair16 prev c)); [|reflexivity|reflexivity]. cbn [bind].
  destruct rest as [|d [|e rest]]; cbn [go]; reflexivity.
Qed.

Lemma pair_ne : forall r, r <> common -> (pair16 r common =? pair16 common common) = false.
Proof. intros r Hr. apply N.eqb_neq. intros E. apply pair16_inj in E; auto. tauto. Qed.

Lemma go_all : forall n ks, (length ks <= n)%nat -> Forall tokOk ks ->
  (forall a, a < 256 -> sp a = false -> go a (bytesOf ks) = Ok (bytesOf (rw (One a :: ks)))) /\
  (forall b, b < 256 -> sp b = true -> go b (bytesOf ks) = Ok (b :: bytesOf (rw ks))).
Proof.
  assert (SPC : forall a b, a < 256 -> b < 256 -> sp a = true -> tval table (pair16 a b) = pair16 common common).
  { intros a b Ha Hb Hs. rewrite HV by assumption. destruct (rule a b) as [r|] eqn:E; [apply HR in E; auto; destruct E as (_ & _ & E & _); congruence|].
    destruct (esc a) as [[x y]|] eqn:E2; [apply HE in E2; auto; destruct E2 as (_ & _ & _ & _ & E2); congruence|reflexivity]. }
  induction n as [|n IH]; intros ks Hn HK.
  { destruct ks; [|cbn in Hn; lia]. clear HK Hn.
    assert (BASE : forall a, a < 256 -> go a [] = finish a) by reflexivity. unfold bytesOf. cbn [map concat]. split.
    - intros a Ha Hs. rewrite BASE by exact Ha. unfold finish. rewrite tget_ok by (rewrite HL; apply pair16_lt; lia). cbn [bind].
      rewrite HV by lia. cbn [rw tr map concat]. destruct (rule a 0) as [r|] eqn:E.
      + rewrite lo16_pair, N.eqb_refl, (H0 a r Ha E) by exact HC. reflexivity.
      + destruct (esc a) as [[x y]|] eqn:E2.
        * destruct (HE a x y Ha E2) as (Hx & Hy & Nx & Ny & _). rewrite lo16_pair, hi16_pair by exact Hy. destruct (N.eqb_spec y common); [contradiction|]. reflexivity.
        * rewrite lo16_pair, N.eqb_refl by exact HC. reflexivity.
    - intros b Hb Hs. rewrite BASE by exact Hb. unfold finish. rewrite tget_ok by (rewrite HL; apply pair16_lt; lia). cbn [bind].
      rewrite SPC by (auto; lia). rewrite lo16_pair, N.eqb_refl by exact HC. reflexivity. }
  (* a token at the beginning *)
  assert (HD : forall ks, (length ks <= n)%nat -> Forall tokOk ks -> forall k, tokOk k ->
    match symBytes k ++ bytesOf ks with d :: r => go d r | [] => UB end = Ok (bytesOf (rw (k :: ks)))).
  { intros ks' Hl HK' k Hk. destruct (IH ks' Hl HK') as (I1 & I2). destruct k as [c|c e]; cbn [symBytes app tokOk] in *.
    - apply I1; apply Hk.
    - destruct Hk as (K1 & K2 & K3 & K4). cbn [go]. rewrite replaceLoop_go, tget_ok by (rewrite HL; apply pair16_lt; lia). cbn [bind].
      rewrite SPC, N.eqb_refl by assumption. rewrite I2 by assumption. cbn [bind rw tr]. reflexivity. }
  destruct ks as [|k ks]; [apply IH; [cbn; lia|constructor]|]. cbn [length] in Hn. inversion_clear HK as [|? ? K1 K2].
  assert (BO : bytesOf (k :: ks) = symBytes k ++ bytesOf ks) by reflexivity. rewrite BO.
  specialize (HD ks ltac:(lia) K2 k K1) as HDK. split.
  - intros a Ha Hs. destruct (symBytes k ++ bytesOf ks) as [|c rest] eqn:ES; [destruct k; discriminate|].
    cbn [go]. rewrite replaceLoop_go.
    assert (Hc : c < 256) by (destruct k; cbn in ES; injection ES as <- _; apply K1).
    rewrite tget_ok by (rewrite HL; apply pair16_lt; lia). cbn [bind]. rewrite HV by assumption.
    destruct (rule a c) as [r|] eqn:ER.
    + destruct (HR a c r Ha Hc ER) as (Hr & Nr & _ & Sc). rewrite pair_ne, lo16_pair, N.eqb_refl, hi16_pair by assumption.
      destruct k as [c'|c' e']; cbn in ES; injection ES as E1 E2.
      2:{ exfalso. destruct K1 as (_ & _ & K1 & _). congruence. }
      subst c' rest. cbn [rw]. rewrite ER. destruct ks as [|k2 ks2]; [cbn; reflexivity|].
      inversion_clear K2 as [|? ? K3 K4]. cbn [length] in Hn. specialize (HD ks2 ltac:(lia) K4 k2 K3).
      change (bytesOf (k2 :: ks2)) with (symBytes k2 ++ bytesOf ks2). destruct (symBytes k2 ++ bytesOf ks2) as [|d r2] eqn:ED; [destruct k2; discriminate|].
      rewrite HD. reflexivity.
    + assert (RW : rw (One a :: k :: ks) = tr esc (One a) :: rw (k :: ks)).
      { destruct k as [c'|c' e']; [|reflexivity]. cbn in ES. injection ES as E1 _. subst c'. cbn [rw]. rewrite ER. reflexivity. }
      rewrite RW. destruct (esc a) as [[x y]|] eqn:EE.
      * destruct (HE a x y Ha EE) as (Hx & Hy & Nx & Ny & _).
        assert (NE : (pair16 x y =? pair16 common common) = false). { apply N.eqb_neq. intros Q. apply pair16_inj in Q; auto. tauto. }
        rewrite NE, lo16_pair, hi16_pair by exact Hy. destruct (N.eqb_spec y common); [contradiction|].
        rewrite HDK. cbn [bind tr]. rewrite EE. reflexivity.
      * rewrite N.eqb_refl, HDK. cbn [bind tr]. rewrite EE. reflexivity.
  - intros b Hb Hs. destruct (symBytes k ++ bytesOf ks) as [|c rest] eqn:ES; [destruct k; discriminate|].
    cbn [go]. rewrite replaceLoop_go.
    assert (Hc : c < 256) by (destruct k; cbn in ES; injection ES as <- _; apply K1).
    rewrite tget_ok by (rewrite HL; apply pair16_lt; lia). cbn [bind]. rewrite SPC, N.eqb_refl by assumption. rewrite HDK. reflexivity.
Qed.

(** The whole text, at least two bytes. *)
Lemma replaced_ok : forall ks room l, Forall tokOk ks -> writeReplaced common table room (bytesOf ks) = Ok l -> l = bytesOf (rw ks).
Proof.
  intros ks room l HK H. unfold writeReplaced in H. destruct (bytesOf ks) as [|c rest] eqn:EB; [discriminate|].
  bd H. destruct (length a <=? room)%nat; [|discriminate]. injection H as <-.
  assert (G : go c rest = Ok a) by (destruct rest; [discriminate|exact E]). clear E.
  destruct ks as [|k ks]; [discriminate|]. inversion_clear HK as [|? ? K1 K2]. destruct (go_all (length ks) ks (le_n _) K2) as (I1 & I2).
  change (bytesOf (k :: ks)) with (symBytes k ++ bytesOf ks) in EB. destruct k as [d|d e]; cbn in EB; injection EB as E1 E2; subst d; subst rest.
  - rewrite I1 in G by apply K1. congruence.
  - destruct K1 as (K1 & K3 & K4 & K5). cbn [go] in G. rewrite replaceLoop_go, tget_ok in G by (rewrite HL; apply pair16_lt; lia). cbn [bind] in G.
    rewrite HV in G by assumption. destruct (rule c e) as [r|] eqn:ER; [apply HR in ER; auto; destruct ER as (_ & _ & ER & _); congruence|].
    destruct (esc c) as [[x y]|] eqn:E2; [apply HE in E2; auto; destruct E2 as (_ & _ & _ & _ & E2); congruence|].
    rewrite N.eqb_refl, I2 in G by assumption. cbn [bind] in G. injection G as <-. reflexivity.
Qed.
End Rewrite.

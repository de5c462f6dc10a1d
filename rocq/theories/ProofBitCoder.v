(** Range coder: lemmas. *)
From Coq Require Import List NArith ZArith Lia Arith Bool.
From Coq Require Import ZifyBool ZifyNat ZifyN.
From Verif Require Import Base ModelUtils ProofUtils1 ModelBitCoder.
Import ListNotations.
Open Scope N_scope.
Ltac Zify.zify_post_hook ::= Z.div_mod_to_equations.

Lemma sameTopByte_spec : forall low high, low < two32 -> high < two32 ->
  sameTopByte low high = (low / 2 ^ 24 =? high / 2 ^ 24).
Proof.
  intros low high Hl Hh. unfold sameTopByte.
  change 4278190080 with (N.shiftl (N.ones 8) 24).
  assert (E : N.land (N.lxor low high) (N.shiftl (N.ones 8) 24)
              = N.shiftl (N.lxor (low / 2 ^ 24) (high / 2 ^ 24)) 24).
  { rewrite <- !N.shiftr_div_pow2, <- N.shiftr_lxor.
    apply N.bits_inj. intros i. rewrite N.land_spec.
    destruct (N.ltb_spec i 24).
    - rewrite !N.shiftl_spec_low by assumption. apply andb_false_r.
    - rewrite !N.shiftl_spec_high' by assumption. rewrite N.shiftr_spec'.
      replace (i - 24 + 24) with i by lia.
      destruct (N.ltb_spec (i - 24) 8).
      + rewrite N.ones_spec_low by assumption. apply andb_true_r.
      + rewrite N.ones_spec_high by assumption. rewrite andb_false_r, N.lxor_spec.
        symmetry.
        rewrite <- (N.mod_small low (2 ^ 32)), <- (N.mod_small high (2 ^ 32)) by assumption.
        rewrite !N.mod_pow2_bits_high by lia. reflexivity. }
  rewrite E, N.shiftl_mul_pow2.
  destruct (N.eqb_spec (low / 2 ^ 24) (high / 2 ^ 24)) as [->|NE].
  - rewrite N.lxor_nilpotent. reflexivity.
  - destruct (N.eqb_spec (N.lxor (low / 2 ^ 24) (high / 2 ^ 24) * 2 ^ 24) 0) as [Z|]; auto.
    exfalso. apply NE. apply N.lxor_eq. lia.
Qed.

Lemma Split_spec : forall low high p, low < high -> high < two32 -> p <= 4096 ->
  exists sp, Split low high p = Ok sp /\ low <= sp < high.
Proof.
  intros low high p H Hh Hp. unfold Split, kProbabilityScale.
  destruct (N.leb_spec p 4096); [|lia]. destruct (N.ltb_spec low high); [|lia].
  cbn [andb]. set (rs := high - low - 1).
  change (N.shiftr 4096 1) with 2048. change (4096 - 1) with (N.ones 12).
  rewrite N.land_ones, !shiftr_div. change (2 ^ 12) with 4096.
  assert (Hrs : rs + 1 + low < two32) by (unfold rs; lia).
  set (hb := rs / 4096). set (lb := rs mod 4096).
  assert (E : rs = 4096 * hb + lb) by (unfold hb, lb; apply N.div_mod; lia).
  assert (lb < 4096) by (unfold lb; apply N.mod_lt; lia).
  assert (A : hb * p <= hb * 4096) by nia.
  assert (B : lb * p <= lb * 4096) by nia.
  unfold two32 in *.
  rewrite (N.mod_small (hb * p)) by lia.
  rewrite (N.mod_small (lb * p + 2048)) by lia.
  assert (C : (lb * p + 2048) / 4096 <= lb).
  { apply N.lt_succ_r. apply N.div_lt_upper_bound; lia. }
  rewrite N.mod_small by lia.
  destruct (N.leb_spec low (low + hb * p + (lb * p + 2048) / 4096)); [|lia].
  destruct (N.ltb_spec (low + hb * p + (lb * p + 2048) / 4096) high); [|lia].
  eexists. split; [reflexivity|]. lia.
Qed.

(** Value of the first four bytes. *)
Definition val4 (l : list N) : N :=
  match l with
  | a :: b :: c :: d :: _ => a * 2 ^ 24 + b * 2 ^ 16 + c * 2 ^ 8 + d
  | _ => 0
  end.


Lemma val4_shift : forall b F, are_bytes F -> (4 <= length F)%nat -> b < 256 ->
  val4 (b :: F) = b * 2 ^ 24 + val4 F / 256 /\
  exists x, skipn 4 (b :: F) = x :: skipn 4 F /\ x < 256 /\
    (N.shiftl (val4 (b :: F)) 8 + x) mod two32 = val4 F.
Proof.
  intros b F HF HL Hb.
  destruct F as [|x0 [|x1 [|x2 [|x3 F]]]]; simpl in HL; try lia.
  inversion HF as [|? ? B0 HF1]; subst. inversion HF1 as [|? ? B1 HF2]; subst.
  inversion HF2 as [|? ? B2 HF3]; subst. inversion HF3 as [|? ? B3 HF4]; subst.
  unfold is_byte in *. cbn [val4].
  change (2 ^ 24) with 16777216. change (2 ^ 16) with 65536. change (2 ^ 8) with 256.
  split; [lia|]. exists x3. split; [reflexivity|]. split; [assumption|].
  rewrite N.shiftl_mul_pow2. unfold two32. change (2 ^ 32) with 4294967296. change (2 ^ 8) with 256.
  lia.
Qed.

Lemma val4_bound : forall F, are_bytes F -> (4 <= length F)%nat -> val4 F < two32.
Proof.
  intros F HF HL.
  destruct F as [|x0 [|x1 [|x2 [|x3 F]]]]; simpl in HL; try lia.
  inversion HF as [|? ? B0 HF1]; subst. inversion HF1 as [|? ? B1 HF2]; subst.
  inversion HF2 as [|? ? B2 HF3]; subst. inversion HF3 as [|? ? B3 HF4]; subst.
  unfold is_byte in *. cbn [val4]. unfold two32.
  change (2 ^ 24) with 16777216. change (2 ^ 16) with 65536. change (2 ^ 8) with 256.
  change (2 ^ 32) with 4294967296. lia.
Qed.

Lemma top_split : forall low high V, low / 2 ^ 24 = high / 2 ^ 24 ->
  256 * (low mod 2 ^ 24) <= V <= 256 * (high mod 2 ^ 24) + 255 ->
  low <= low / 2 ^ 24 * 2 ^ 24 + V / 256 <= high.
Proof.
  intros low high V E [A B].
  pose proof (N.div_mod low (2 ^ 24) ltac:(lia)) as L.
  pose proof (N.div_mod high (2 ^ 24) ltac:(lia)) as H.
  rewrite <- E in H. clear E.
  set (q := low / 2 ^ 24) in *. set (rl := low mod 2 ^ 24) in *. set (rh := high mod 2 ^ 24) in *.
  clearbody q rl rh. set (K := 2 ^ 24) in *. clearbody K. subst low high.
  assert (rl <= V / 256 <= rh) by lia. nia.
Qed.

Lemma renorm_sim : forall f g low high ctr, low <= high -> high < two32 -> ctr < two64 ->
  two32 <= 256 ^ N.of_nat f * (high - low + 1) ->
  exists low' high' e,
    encRenorm (f + g) (mkEnc low high ctr) = Ok (mkEnc low' high' ((ctr + N.of_nat (length e)) mod two64), e) /\
    (length e <= f)%nat /\ are_bytes e /\ low' < high' /\ high' < two32 /\
    sameTopByte low' high' = false /\
    forall F rest, are_bytes F -> (4 <= length F)%nat -> low' <= val4 F <= high' ->
      low <= val4 (e ++ F) <= high /\
      decRenorm (f + g) (mkDec low high (val4 (e ++ F))) (bytes_bits (skipn 4 (e ++ F)) ++ rest)
      = Ok (mkDec low' high' (val4 F), bytes_bits (skipn 4 F) ++ rest).
Proof.
  induction f as [|f IH]; intros g low high ctr Hlh Hh Hc HW.
  - change (256 ^ N.of_nat 0) with 1 in HW. exists low, high, [].
    assert (NE : low / 2 ^ 24 =? high / 2 ^ 24 = false).
    { change (2 ^ 24) with 16777216. unfold two32 in *. lia. }
    rewrite <- sameTopByte_spec in NE by lia.
    cbn [Nat.add app length]. rewrite N.add_0_r, N.mod_small by assumption.
    repeat split; auto; try lia.
    + destruct g; cbn [encRenorm e_low e_high]; rewrite NE; reflexivity.
    + constructor.
    + unfold two32 in *. lia.
    + destruct g; cbn [decRenorm d_low d_high]; rewrite NE; reflexivity.
  - cbn [Nat.add encRenorm decRenorm e_low e_high e_counter d_low d_high d_next].
    rewrite sameTopByte_spec by lia.
    destruct (N.eqb_spec (low / 2 ^ 24) (high / 2 ^ 24)) as [E|NE].
    + assert (EL : N.shiftl low 8 mod two32 = 256 * (low mod 2 ^ 24)).
      { rewrite N.shiftl_mul_pow2. unfold two32. change (2 ^ 8) with 256.
        change (2 ^ 32) with 4294967296. change (2 ^ 24) with 16777216. lia. }
      assert (EH : (N.shiftl high 8 + 255) mod two32 = 256 * (high mod 2 ^ 24) + 255).
      { rewrite N.shiftl_mul_pow2. unfold two32. change (2 ^ 8) with 256.
        change (2 ^ 32) with 4294967296. change (2 ^ 24) with 16777216. lia. }
      rewrite EL, EH. rewrite shiftr_div.
      set (lo1 := 256 * (low mod 2 ^ 24)). set (hi1 := 256 * (high mod 2 ^ 24) + 255).
      assert (D : hi1 - lo1 + 1 = 256 * (high - low + 1) /\ lo1 <= hi1 /\ hi1 < two32).
      { unfold hi1, lo1, two32 in *. change (2 ^ 24) with 16777216 in *. change (2 ^ 32) with 4294967296 in *.
        lia. }
      destruct D as [D1 [D2 D3]].
      destruct (IH g lo1 hi1 ((ctr + 1) mod two64)) as (low' & high' & e & E1 & E2 & E3 & E4 & E5 & E5' & E6); auto.
      { apply N.mod_lt. unfold two64. lia. }
      { rewrite D1. rewrite Nat2N.inj_succ, N.pow_succ_r' in HW. lia. }
      rewrite E1. cbn [bind].
      exists low', high', (low / 2 ^ 24 :: e).
      split.
      { rewrite N.add_mod_idemp_l by (unfold two64; lia).
        replace (ctr + 1 + N.of_nat (length e)) with (ctr + N.of_nat (length (low / 2 ^ 24 :: e)))
          by (cbn [length]; lia). reflexivity. }
      split; [simpl; lia|].
      assert (Hb : low / 2 ^ 24 < 256).
      { unfold two32 in *. change (2 ^ 24) with 16777216. lia. }
      split; [constructor; auto|]. split; [exact E4|]. split; [exact E5|]. split; [exact E5'|].
      intros F rest HF HL HV.
      destruct (E6 F rest HF HL HV) as [V1 V2].
      assert (HeF : are_bytes (e ++ F)) by (apply Forall_app; auto).
      assert (LeF : (4 <= length (e ++ F))%nat) by (rewrite app_length; lia).
      destruct (val4_shift (low / 2 ^ 24) (e ++ F) HeF LeF Hb) as [S1 [x [S2 [S3 S4]]]].
      cbn [app]. split.
      { rewrite S1. apply top_split; assumption. }
      rewrite S2, bytes_bits_cons, <- app_assoc. 
      rewrite readByte_spec by assumption. rewrite S4. exact V2.
    + exists low, high, []. cbn [app length].
      rewrite N.add_0_r, N.mod_small by assumption.
      repeat split; auto; try lia.
      * constructor.
      * rewrite sameTopByte_spec by lia. apply N.eqb_neq. exact NE.
Qed.

(** Encoder states between calls. *)
Definition enc_ok (st : encState) : Prop :=
  e_low st < e_high st /\ e_high st < two32 /\ e_counter st < two64 /\
  sameTopByte (e_low st) (e_high st) = false.

Lemma encode_sim : forall st bit p, enc_ok st -> p <= 4096 ->
  exists st' e,
    encode st bit p = Ok (st', e) /\ enc_ok st' /\ (length e <= 4)%nat /\ are_bytes e /\
    e_counter st' = (e_counter st + N.of_nat (length e)) mod two64 /\
    forall F rest, are_bytes F -> (4 <= length F)%nat -> e_low st' <= val4 F <= e_high st' ->
      e_low st <= val4 (e ++ F) <= e_high st /\
      decode (mkDec (e_low st) (e_high st) (val4 (e ++ F))) p (bytes_bits (skipn 4 (e ++ F)) ++ rest)
      = Ok (bit, mkDec (e_low st') (e_high st') (val4 F), bytes_bits (skipn 4 F) ++ rest).
Proof.
  intros [low high ctr] bit p [H1 [H2 [H3 _]]] Hp. cbn [e_low e_high e_counter] in *.
  destruct (Split_spec low high p H1 H2 Hp) as [sp [ES HS]].
  unfold encode, decode. cbn [e_low e_high e_counter d_low d_high d_next].
  rewrite ES. cbn [bind].
  assert (W : forall a b, two32 <= 256 ^ N.of_nat 4 * (b - a + 1)).
  { intros. change (256 ^ N.of_nat 4) with two32. unfold two32. nia. }
  rewrite (N.mod_small (sp + 1)) by (unfold two32 in *; lia).
  assert (G : forall lo hi, low <= lo -> hi <= high -> lo <= hi ->
    (forall v, lo <= v <= hi -> (v <=? sp) = bit) ->
    (if bit then mkEnc low sp ctr else mkEnc (sp + 1) high ctr) = mkEnc lo hi ctr ->
    (forall nx, (if bit then mkDec low sp nx else mkDec (sp + 1) high nx) = mkDec lo hi nx) ->
    exists st' e,
      (let! (st2, bytes) := encRenorm 5 (if bit then mkEnc low sp ctr else mkEnc (sp + 1) high ctr) in
       if e_low st2 <? e_high st2 then Ok (st2, bytes) else UB) = Ok (st', e) /\
      enc_ok st' /\ (length e <= 4)%nat /\ are_bytes e /\
      e_counter st' = (ctr + N.of_nat (length e)) mod two64 /\
      forall F rest, are_bytes F -> (4 <= length F)%nat -> e_low st' <= val4 F <= e_high st' ->
        low <= val4 (e ++ F) <= high /\
        (let! (st2, s') := decRenorm 5
            (if val4 (e ++ F) <=? sp then mkDec low sp (val4 (e ++ F)) else mkDec (sp + 1) high (val4 (e ++ F)))
            (bytes_bits (skipn 4 (e ++ F)) ++ rest) in
         if (d_low st2 <? d_high st2) && (d_low st2 <=? d_next st2) && (d_next st2 <=? d_high st2)
         then Ok (val4 (e ++ F) <=? sp, st2, s') else UB)
        = Ok (bit, mkDec (e_low st') (e_high st') (val4 F), bytes_bits (skipn 4 F) ++ rest)).
  { intros lo hi Hlo Hhi Hle Hbit Eenc Edec.
    destruct (renorm_sim 4 1 lo hi ctr Hle ltac:(lia) H3 (W _ _))
      as (low' & high' & e & E1 & E2 & E3 & E4 & E5 & E5' & E6).
    change (4 + 1)%nat with 5%nat in *.
    exists (mkEnc low' high' ((ctr + N.of_nat (length e)) mod two64)), e.
    rewrite Eenc, E1. cbn [bind e_low e_high e_counter].
    destruct (N.ltb_spec low' high'); [|lia].
    split; [reflexivity|].
    split. { repeat split; cbn; auto. apply N.mod_lt. unfold two64. lia. }
    split; [exact E2|]. split; [exact E3|]. split; [reflexivity|].
    intros F rest HF HL HV.
    destruct (E6 F rest HF HL HV) as [V1 V2]. split; [lia|].
    rewrite (Hbit _ V1). rewrite Edec, V2. cbn [bind d_low d_high d_next].
    destruct (N.ltb_spec low' high'); [|lia].
    destruct (N.leb_spec low' (val4 F)); [|lia].
    destruct (N.leb_spec (val4 F) high'); [|lia]. reflexivity. }
  destruct bit.
  - apply (G low sp); auto; try lia. 
  - apply (G (sp + 1) high); auto; try lia.
Qed.


Lemma finish_val : forall st, enc_ok st ->
  let F := snd (encFinish st) in
  are_bytes F /\ length F = 4%nat /\ e_low st <= val4 F <= e_high st.
Proof.
  intros [low high ctr] [H1 [H2 [H3 Hd]]] F. cbn [e_low e_high e_counter] in *.
  rewrite sameTopByte_spec in Hd by lia. subst F. unfold encFinish. cbn [snd e_low].
  rewrite shiftr_div. cbn [val4]. unfold two32 in *.
  change (2 ^ 24) with 16777216 in *. change (2 ^ 16) with 65536. change (2 ^ 8) with 256.
  change (2 ^ 32) with 4294967296 in *.
  split; [|split].
  - repeat constructor; unfold is_byte; lia.
  - reflexivity.
  - lia.
Qed.

(** Probabilities the coder accepts. *)
Definition codable (t : bool * N) : Prop := snd t <= 4096.

Lemma trace_enc : forall trace st, enc_ok st -> Forall codable trace ->
  exists fin bytes,
    encodeTrace st trace = Ok (fin, bytes) /\ enc_ok fin /\
    are_bytes bytes /\ (length bytes <= 4 * length trace)%nat /\
    e_counter fin = (e_counter st + N.of_nat (length bytes)) mod two64 /\
    e_low st <= val4 (bytes ++ snd (encFinish fin)) <= e_high st.
Proof.
  induction trace as [|[b p] t IH]; intros st Hst Ht.
  - exists st, []. cbn [encodeTrace]. destruct (finish_val st Hst) as [A [B C]].
    repeat split; auto; try apply Hst; try lia.
    + constructor.
    + cbn. rewrite N.add_0_r, N.mod_small; auto. apply Hst.
    + cbn [app]. lia.
    + cbn [app]. lia.
  - inversion Ht as [|? ? Hp Ht']; subst. cbn in Hp.
    destruct (encode_sim st b p Hst Hp) as (st1 & e & E1 & O1 & L1 & B1 & C1 & S1).
    destruct (IH st1 O1 Ht') as (fin & bytes & E2 & O2 & B2 & L2 & C2 & V2).
    exists fin, (e ++ bytes). cbn [encodeTrace]. rewrite E1. cbn [bind]. rewrite E2. cbn [bind].
    destruct (finish_val fin O2) as [FA [FB FC]].
    split; [reflexivity|]. split; [exact O2|].
    split; [apply Forall_app; auto|].
    split; [rewrite app_length; cbn [length]; lia|].
    split.
    + rewrite C2, C1, app_length, N.add_mod_idemp_l by (unfold two64; lia). f_equal. lia.
    + rewrite <- app_assoc. apply (S1 _ []).
      * apply Forall_app; auto.
      * rewrite app_length. lia.
      * exact V2.
Qed.

(** The decoder [D] is ready to decode [trace], after which [rest] is left. *)
Definition dec_ready (trace : list (bool * N)) (rest : list bool) (D : decState * list bool) : Prop :=
  Forall codable trace /\
  exists st bytes fin,
    enc_ok st /\ encodeTrace st trace = Ok (fin, bytes) /\
    let F := bytes ++ snd (encFinish fin) in
    D = (mkDec (e_low st) (e_high st) (val4 F), bytes_bits (skipn 4 F) ++ rest).

Lemma dec_ready_step : forall b p trace rest D, dec_ready ((b, p) :: trace) rest D ->
  exists D', decode (fst D) p (snd D) = Ok (b, fst D', snd D') /\ dec_ready trace rest D'.
Proof.
  intros b p trace rest D [HC (st & bytes & fin & Hst & E & ->)].
  inversion HC as [|? ? Hp Ht]; subst. cbn in Hp.
  destruct (encode_sim st b p Hst Hp) as (st1 & e & E1 & O1 & L1 & B1 & C1 & S1).
  destruct (trace_enc trace st1 O1 Ht) as (fin' & bytes' & E2 & O2 & B2 & L2 & C2 & V2).
  cbn [encodeTrace] in E. rewrite E1 in E. cbn [bind] in E. rewrite E2 in E. cbn [bind] in E.
  inversion E; subst fin' bytes. clear E.
  destruct (finish_val fin O2) as [FA [FB FC]].
  eexists (mkDec _ _ _, _). cbn [fst snd]. rewrite <- app_assoc. split.
  - apply S1.
    + apply Forall_app; auto.
    + rewrite app_length. lia.
    + exact V2.
  - split; [exact Ht|]. exists st1, bytes', fin. auto.
Qed.

Lemma dec_ready_nil : forall rest D, dec_ready [] rest D -> snd D = rest.
Proof.
  intros rest D [_ (st & bytes & fin & Hst & E & ->)]. cbn in E. inversion E; subst. reflexivity.
Qed.

Lemma encInit_ok : forall c, c < two64 -> enc_ok (mkEnc 0 4294967295 c).
Proof. intros c H. repeat split; auto; reflexivity. Qed.

Lemma dec_ready_start : forall c trace rest, c < two64 -> Forall codable trace ->
  exists fin bytes,
    encodeTrace (mkEnc 0 4294967295 c) trace = Ok (fin, bytes) /\ enc_ok fin /\
    are_bytes bytes /\ (length bytes <= 4 * length trace)%nat /\
    e_counter fin = (c + N.of_nat (length bytes)) mod two64 /\
    dec_ready trace rest (decStart (bytes_bits (bytes ++ snd (encFinish fin)) ++ rest)).
Proof.
  intros c trace rest Hc HT.
  destruct (trace_enc trace _ (encInit_ok c Hc) HT) as (fin & bytes & E & O & B & L & C & V).
  exists fin, bytes. repeat split; auto; try apply O.
  exists (mkEnc 0 4294967295 c), bytes, fin. split; [apply encInit_ok; exact Hc|].
  split; [exact E|]. cbn [e_low e_high].
  destruct (finish_val fin O) as [FA [FB FC]].
  assert (HF : are_bytes (bytes ++ snd (encFinish fin))) by (apply Forall_app; auto).
  assert (HL : (4 <= length (bytes ++ snd (encFinish fin)))%nat) by (rewrite app_length; lia).
  set (F := bytes ++ snd (encFinish fin)) in *. clearbody F.
  destruct F as [|x0 [|x1 [|x2 [|x3 F]]]]; simpl in HL; try lia.
  inversion HF as [|? ? B0 HF1]; subst. inversion HF1 as [|? ? B1 HF2]; subst.
  inversion HF2 as [|? ? B2 HF3]; subst. inversion HF3 as [|? ? B3 HF4]; subst.
  unfold is_byte in *. rewrite !bytes_bits_cons, <- !app_assoc. unfold decStart.
  do 4 (rewrite readByte_spec by assumption).
  cbn [skipn val4]. f_equal. f_equal. rewrite !N.shiftl_mul_pow2. unfold two32.
  change (2 ^ 24) with 16777216. change (2 ^ 16) with 65536. change (2 ^ 8) with 256.
  change (2 ^ 32) with 4294967296. lia.
Qed.

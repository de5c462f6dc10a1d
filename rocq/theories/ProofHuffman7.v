(** Corollaries and examples for C09 to C12. *)
From Coq Require Import List NArith ZArith Lia Arith Bool Permutation Sorted.
From Coq Require Import ZifyBool ZifyNat ZifyN.
From Verif Require Import Base Arrays ModelUtils ModelStreams ModelHeaders ModelHuffman SpecHuffman SpecHeaders.
From Verif Require Import ProofHeaders ProofHuffman3 ProofHuffman4 ProofHuffman5 ProofHuffman6.
Import ListNotations.
Open Scope nat_scope.

Lemma C09_all : forall freqs, 2 <= length (filter (fun f => 0 <? f)%N freqs) -> (sumN freqs < two64)%N ->
  exists lens, calculateHuffmanLengths freqs = Ok lens /\
    NoDup (map snd lens) /\ (forall s, In s (map snd lens) <-> occurs freqs s) /\
    complete (map (fun p => N.to_nat (fst p)) lens) /\ Forall (fun p => 1 <= fst p)%N lens /\
    StronglySorted (fun p q => fst q <= fst p /\
      nth (N.to_nat (snd p)) freqs 0 <= nth (N.to_nat (snd q)) freqs 0)%N lens.
Proof.
  intros freqs H2 HS. destruct (huffman_all freqs H2 HS) as (lens & A & B & C & D & E & F & _).
  exists lens. auto 10.
Qed.

Lemma C10_all : forall freqs, 2 <= length (filter (fun f => 0 <? f)%N freqs) -> (sumN freqs < two64)%N ->
  exists lens, calculateHuffmanLengths freqs = Ok lens /\ (forall s, In s (map snd lens) <-> occurs freqs s) /\
    forall assign : N -> list bool, prefix_free (map assign (map snd lens)) ->
      (coded_length freqs lens <=
      coded_length freqs (map (fun s => (N.of_nat (length (assign s)), s)) (map snd lens)))%N.
Proof.
  intros freqs H2 HS. destruct (huffman_all freqs H2 HS) as (lens & A & B & C & D & E & F & G & H).
  exists lens. auto 10.
Qed.

Lemma fib_iter : forall n, (fib n, fib (S n)) = Nat.iter n (fun p : N * N => (snd p, fst p + snd p)%N) (0, 1)%N.
Proof.
  induction n as [|n IH]; [reflexivity|]. change (Nat.iter (S n) ?f ?x) with (f (Nat.iter n f x)). rewrite <- IH. cbn [fst snd].
  rewrite (fib_SS n). f_equal. lia.
Qed.
Lemma fib_val : forall n, fib n = fst (Nat.iter n (fun p : N * N => (snd p, fst p + snd p)%N) (0, 1)%N).
Proof. intros n. rewrite <- fib_iter. reflexivity. Qed.
Lemma fib_47 : fib 47 = 2971215073%N.
Proof. rewrite fib_val. vm_compute. reflexivity. Qed.
Lemma fib_94 : fib 94 = 19740274219868223167%N.
Proof. rewrite fib_val. vm_compute. reflexivity. Qed.

Lemma length_bound : forall freqs lens, 2 <= length (filter (fun f => 0 <? f)%N freqs) ->
  (sumN freqs < two64)%N -> calculateHuffmanLengths freqs = Ok lens ->
  Forall (fun p => fib (N.to_nat (fst p) + 2) <= sumN freqs)%N lens /\
  ((sumN freqs < 2 ^ 31)%N -> Forall (fun p => fst p <= 44)%N lens) /\ Forall (fun p => fst p <= 91)%N lens.
Proof.
  intros freqs lens H2 HS HL. destruct (huffman_all freqs H2 HS) as (lens' & A & B & C & D & E & F & G & H).
  assert (lens' = lens) as -> by congruence. split; [exact G|].
  assert (K : forall b, (sumN freqs < fib (b + 3))%N -> Forall (fun p => fst p <= N.of_nat b)%N lens).
  { intros b Hb. eapply Forall_impl; [|exact G]. cbn beta. intros p Hp.
    destruct (N.le_gt_cases (fst p) (N.of_nat b)) as [L|L]; [exact L|]. exfalso.
    pose proof (fib_mono (b + 3) (N.to_nat (fst p) + 2) ltac:(lia)). lia. }
  split.
  - intros HS2. specialize (K 44). change (44 + 3) with 47 in K. rewrite fib_47 in K. apply K.
    clear - HS2. lia.
  - specialize (K 91). change (91 + 3) with 94 in K. rewrite fib_94 in K. apply K.
    unfold two64 in HS. clear - HS. lia.
Qed.

Lemma single_symbol : forall before f after, Forall (fun x => x = 0%N) before -> (0 < f)%N -> Forall (fun x => x = 0%N) after ->
  calculateHuffmanLengths (before ++ f :: after) = Ok [(1%N, N.of_nat (length before))].
Proof.
  intros before f after HB Hf HA. unfold calculateHuffmanLengths.
  assert (Z : forall l k, Forall (fun x => x = 0%N) l ->
    filter (fun p : N * N => negb (fst p =? 0)%N) (combine l (fromTo k (length l))) = []).
  { induction l as [|x l IH]; intros k F; [reflexivity|]. inversion_clear F as [|? ? -> F'].
    cbn [length fromTo combine filter fst]. apply IH. exact F'. }
  assert (E : forall l k, Forall (fun x => x = 0%N) l ->
    filter (fun p : N * N => negb (fst p =? 0)%N) (combine (l ++ f :: after) (fromTo k (length (l ++ f :: after)))) =
    [(f, (k + N.of_nat (length l))%N)]).
  { induction l as [|x l IH]; intros k F.
    - cbn [app length fromTo combine filter fst]. rewrite (Z after _ HA).
      replace (f =? 0)%N with false by lia. cbn [negb]. do 2 f_equal. cbn. lia.
    - inversion_clear F as [|? ? -> F']. cbn [app length fromTo combine filter fst].
      change (negb (0 =? 0)%N) with false. cbv iota. rewrite IH by exact F'. do 2 f_equal. cbn [length]. lia. }
  unfold nonZeroPairs. rewrite (E before 0%N HB). reflexivity.
Qed.

Ltac notprefix := let z := fresh in let E := fresh in intros [z E]; discriminate E.
Lemma C10_example_proof :
  match calculateHuffmanLengths [5; 0; 1; 9; 1; 3]%N with
  | Ok lens => coded_length [5; 0; 1; 9; 1; 3]%N lens = 36%N /\
      prefix_free (map (fun s => if (s =? 0)%N then [true; true] else if (s =? 2)%N then [false; false; false]
        else if (s =? 3)%N then [true; false] else if (s =? 4)%N then [false; false; true] else [false; true]) (map snd lens))
  | _ => False
  end.
Proof.
  replace (calculateHuffmanLengths [5; 0; 1; 9; 1; 3]%N) with (Ok [(4, 2); (4, 4); (3, 5); (2, 0); (1, 3)]%N)
    by (vm_compute; reflexivity).
  split; [vm_compute; reflexivity|]. cbn. repeat (constructor; [repeat (constructor; [split; notprefix|]); constructor|]). constructor.
Qed.

Lemma C11_example_proof :
  let clen := ([2; 0; 4; 1; 4; 3] ++ repeat 0 250)%N in
  computeHuffmanCodes clen = Ok ([1; 0; 0; 1; 1; 1] ++ repeat 0 250)%N /\ codeTable clen.
Proof.
  cbv zeta. split; [vm_compute; reflexivity|]. left.
  replace (used _) with [2; 4; 1; 4; 3] by (vm_compute; reflexivity).
  intros H F. assert (H >= 4) by (inversion_clear F as [|? ? _ F1]; inversion F1; auto).
  rewrite !kraft_cons. change (kraft H []) with 0%N.
  replace (N.of_nat (H - 2)) with (2 + N.of_nat (H - 4))%N by lia.
  replace (N.of_nat (H - 1)) with (3 + N.of_nat (H - 4))%N by lia.
  replace (N.of_nat (H - 3)) with (1 + N.of_nat (H - 4))%N by lia.
  replace (N.of_nat H) with (4 + N.of_nat (H - 4))%N by lia.
  rewrite !N.pow_add_r. change (2 ^ 2)%N with 4%N. change (2 ^ 3)%N with 8%N. change (2 ^ 1)%N with 2%N.
  change (2 ^ 4)%N with 16%N. lia.
Qed.

Lemma incomplete_code : exists clen codes, length clen = 256 /\
  (kraft 2 (used clen) < 2 ^ 2)%N /\ computeHuffmanCodes clen = Ok codes /\
  nth_error clen 0 = Some 1%N /\ nth_error clen 1 = Some 2%N /\
  match nth_error codes 0, nth_error codes 1 with
  | Some c, Some d => is_prefix (be_bits 1 c) (be_bits 2 d)
  | _, _ => False
  end.
Proof.
  exists ([1; 2] ++ repeat 0 254)%N, (repeat 0%N 256).
  repeat split. exists [false]. reflexivity.
Qed.

Lemma C12_all : forall clen, length clen = 256 -> Exists (fun l => 0 < l)%N clen ->
  Forall (fun l => l < 128)%N clen ->
  exists bits, serializeShape clen = Ok bits /\ are_bytes (writeShapeBytes bits) /\
    forall following, deserializeShape (bytes_bits (writeShapeBytes bits) ++ bytes_bits following) =
      Ok (clen, length (writeShapeBytes bits), bytes_bits following).
Proof.
  intros clen L EX F. destruct (shape_all clen L EX F) as (bits & A & B). exists bits. split; [exact A|].
  destruct (writeShape_spec bits) as (pad & P1 & P2 & P3). split; [exact P2|].
  intros following. rewrite P3, <- app_assoc.
  assert (LE : 8 * length (writeShapeBytes bits) = length bits + pad).
  { rewrite <- bytes_bits_length, P3, app_length, repeat_length. reflexivity. }
  rewrite B; [|exact P1|].
  - do 3 f_equal. rewrite <- LE, Nat.mul_comm, Nat.div_mul; lia.
  - rewrite <- LE, Nat.mul_comm. apply Nat.mod_mul. lia.
Qed.

Lemma long_code : exists clen bits, length clen = 256 /\ Forall (fun l => l < 256)%N clen /\
  serializeShape clen = Ok bits /\
  forall n rest, deserializeShape (bytes_bits (writeShapeBytes bits)) <> Ok (clen, n, rest).
Proof.
  set (clen := (130 :: repeat 0 255)%N).
  exists clen. set (r := serializeShape clen). vm_compute in r.
  match goal with r := Ok ?b |- _ => exists b end.
  split; [reflexivity|]. split.
  - apply Forall_forall. intros x Hx. destruct Hx as [<-|Hx]; [lia|]. apply repeat_spec in Hx. lia.
  - split; [reflexivity|]. intros n rest E.
    match type of E with ?f = _ => let v := eval vm_compute in f in change f with v in E end. discriminate.
Qed.

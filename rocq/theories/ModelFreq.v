(** Transcription of FrequencyTable, /repo/preprocessors/FrequencyTable.hpp and .cpp. *)
From Coq Require Import List NArith Arith Bool.
From Verif Require Import Base Arrays ModelUtils.
Import ListNotations.
Open Scope N_scope.

(** FrequencyTable.hpp 71-73: m_frequencies (key, frequency), m_location, m_last. *)
Record ftable := mkFT { ft_freqs : list (N * N); ft_loc : list N; ft_last : nat }.

(** FrequencyTable.cpp 146-150. *)
Fixpoint initLocations (i : N) (freqs : list (N * N)) (loc : list N) : outcome (list N) :=
  match freqs with
  | [] => Ok loc
  | (k, _) :: r => let! loc := set loc (N.to_nat k) i in initLocations (i + 1) r loc
  end.

(** FrequencyTable.cpp 42-48. *)
Definition ftEmpty : outcome ftable :=
  let freqs := map (fun i => (N.of_nat i, 0)) (seq 0 256) in
  let! loc := initLocations 0 freqs (repeat 0 256) in
  Ok (mkFT freqs loc 256).

(** FrequencyTable.cpp 64-76.  std::sort compares frequencies only, so the order of keys
    of equal frequency is unspecified: [sortF] is any sorting function. *)
Definition ftInit (sortF : list (N * N) -> list (N * N)) (frequencies : list N) : outcome ftable :=
  let freqs := sortF (combine (map N.of_nat (seq 0 256)) frequencies) in
  let! loc := initLocations 0 freqs (repeat 0 256) in
  Ok (mkFT freqs loc 256).

(** FrequencyTable.cpp 78-81: assertion, and the size_t is returned as uint32. *)
Definition ftGetFrequency (t : ftable) (i : nat) : outcome N :=
  if (i <? ft_last t)%nat then let! p := get (ft_freqs t) i in Ok (snd p mod two32) else UB.

(** FrequencyTable.cpp 83-85. *)
Definition ftGetFrequencyWithKey (t : ftable) (key : N) : outcome N :=
  let! i := get (ft_loc t) (N.to_nat key) in
  let! p := get (ft_freqs t) (N.to_nat i) in
  Ok (snd p mod two32).

(** FrequencyTable.cpp 87-90. *)
Definition ftGetKey (t : ftable) (i : nat) : outcome N :=
  if (i <=? 255)%nat then let! p := get (ft_freqs t) i in Ok (fst p) else UB.

(** FrequencyTable.cpp 100-105: the loop of [decrease]; [value] is the new frequency. *)
Fixpoint decreaseLoop (index : nat) (value : N) (freqs : list (N * N)) (loc : list N)
    : outcome (nat * list (N * N) * list N) :=
  match index with
  | O => Ok (O, freqs, loc)
  | S i =>
    let! (k, f) := get freqs i in
    if value <? f then
      let! l := get loc (N.to_nat k) in
      let! loc := set loc (N.to_nat k) ((l + 1) mod 256) in
      let! freqs := set freqs (S i) (k, f) in
      decreaseLoop i value freqs loc
    else Ok (index, freqs, loc)
  end.

(** FrequencyTable.cpp 92-110.  The first assertion makes the result always true. *)
Definition ftDecrease (t : ftable) (key value : N) : outcome ftable :=
  let! i := get (ft_loc t) (N.to_nat key) in
  let! (k, f) := get (ft_freqs t) (N.to_nat i) in
  if value <=? f then
    let! (i, freqs, loc) := decreaseLoop (N.to_nat i) (f - value) (ft_freqs t) (ft_loc t) in
    let! freqs := set freqs i (k, f - value) in
    let! loc := set loc (N.to_nat k) (N.of_nat i) in
    Ok (mkFT freqs loc (ft_last t))
  else UB.

(** What [m_frequencies[256].second] reads (FrequencyTable.cpp 135, FrequencyTable.hpp 71-72).  The array has 256 elements, so the access is
    undefined ([strictOver]).  With gcc on x86-64 the pair has 16 bytes, the frequency is at
    offset 8 and m_location follows the array, so the eight bytes m_location[8..15] are
    read as a little endian number ([layoutOver]). *)
Definition strictOver (loc : list N) : outcome N := UB.
Definition layoutOver (loc : list N) : outcome N :=
  Ok (fold_right (fun b acc => b + 256 * acc) 0 (firstn 8 (skipn 8 loc))).

(** FrequencyTable.cpp 135-140: the loop of [increase].  If the value read behind the array
    were smaller the loop would go on with a garbage key: undefined. *)
Fixpoint increaseLoop (over : list N -> outcome N) (fuel last index : nat) (value : N)
    (freqs : list (N * N)) (loc : list N) : outcome (nat * list (N * N) * list N) :=
  match fuel with
  | O => Fuel
  | S fuel =>
    if (index <? last)%nat then
      if (S index <? length freqs)%nat then
        let! (k, f) := get freqs (S index) in
        if f <? value then
          let! l := get loc (N.to_nat k) in
          let! loc := set loc (N.to_nat k) ((l + 255) mod 256) in
          let! freqs := set freqs index (k, f) in
          increaseLoop over fuel last (S index) value freqs loc
        else Ok (index, freqs, loc)
      else
        let! f := over loc in
        if f <? value then UB else Ok (index, freqs, loc)
    else Ok (index, freqs, loc)
  end.

(** FrequencyTable.cpp 128-144. *)
Definition ftIncrease (over : list N -> outcome N) (t : ftable) (key value : N) : outcome ftable :=
  let! i := get (ft_loc t) (N.to_nat key) in
  let! (k, f) := get (ft_freqs t) (N.to_nat i) in
  let value := (value + f) mod two64 in
  if k =? key then
    let! (i, freqs, loc) := increaseLoop over 257 (ft_last t) (N.to_nat i) value (ft_freqs t) (ft_loc t) in
    let! freqs := set freqs i (key, value) in
    let! loc := set loc (N.to_nat key) (N.of_nat i) in
    Ok (mkFT freqs loc (ft_last t))
  else UB.

(** FrequencyTable.cpp 112-116. *)
Definition ftRemove (over : list N -> outcome N) (t : ftable) (key : N) : outcome ftable :=
  match ft_last t with
  | O => UB
  | S l =>
    let! i := get (ft_loc t) (N.to_nat key) in
    let! top := get (ft_freqs t) l in
    let! p := get (ft_freqs t) (N.to_nat i) in
    let! t := ftIncrease over t key ((snd top + two64 - snd p + 1) mod two64) in
    Ok (mkFT (ft_freqs t) (ft_loc t) l)
  end.

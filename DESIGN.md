# Formal model of pjmikkol/bwtc — design

All proofs are in Rocq/Coq 8.16.1 under `rocq/theories` (logical name `Verif`).
The C++ text in `/repo` is read, never run.  The model is a transcription by
hand of the C++ functions into total, executable Gallina functions; each
definition cites the file and lines it stands for.

## Layers

| file kind | content |
|---|---|
| `Base*.v` | bits, bytes, list lemmas: no bwtc specifics |
| `Model*.v` | transcription of the C++ (definitions only, line references) |
| `Spec*.v` | the small vocabulary in which properties are stated, independent of the model |
| `Proof*.v` | lemmas |
| `Prop*.v` | property theorems `Cnn_...`, each closed with `exact`, followed by `Print Assumptions` and an `Example` showing that the hypotheses are met by a concrete case |

Conventions

* machine integers are `N` (or `Z` where C++ uses signed values); wrap-around is
  written out (`mod 2^32`, `mod 2^64`) wherever a reachable value may wrap.
* `nat` is used for lengths, indices and fuel.
* undefined behaviour (out-of-range read or write, shift by too much, failed
  assertion) is a separate outcome: functions that may run into it return
  `option`/`outcome`, and the theorems state that the outcome is a normal one.
* input streams are lists of bits (most significant bit of each byte first);
  reading past the end yields one-bits, as `RawInStream` does (`EOF` is cast to
  the byte 0xFF).  `flushBuffer` drops to the next byte border.
* output streams are lists of bytes; `write48bits` overwrites six of them.
* the suffix sorting of divsufsort is an oracle: the theorems about BWT hold for
  every permutation that sorts the suffixes.  SA-IS (option `--bwt s`) is modelled
  and proved to compute that permutation (C45, C46), so the theorems for this
  option make no assumption about sorting.
* the `log()` based heuristics in `WaveletTree` are an oracle: theorems hold for
  every value they may return.  The block sizes of `Compressor::compress` are
  arbitrary numbers in C39-C42, and computed with doubles in C48: IEEE 754
  binary64 as in `Coq.Floats.SpecFloat` (plain Gallina functions, no primitive
  floats), each operation rounded to nearest even.

## Properties: plan

| id | model | proof idea |
|---|---|---|
| C01 | packInteger, unpackInteger, writePackedInteger, readPackedInteger | induction on 7-bit groups |
| C02 | packAndWriteInteger, readAndUnpackInteger | same; witness for 0 |
| C03 | pushBitsRev, readPackedIntegerRev | same as C01 on reversed bit groups |
| C04 | unaryCode, unaryDecode | induction |
| C05 | binaryCode, binaryDecode | case analysis on short/long codewords |
| C06 | interpolative coder/decoder | induction on number of elements |
| C07 | logFloor, logCeiling, mostSignificantBit(16) | N.log2, bit-wise reasoning |
| C08 | three run-splitting functions | loop invariant against a run-length specification |
| C09 | calculateCodeLengths, calculateHuffmanLengths | invariants of the two in-place phases, Kraft sum |
| C10 | same | Huffman's exchange argument on code-length multisets |
| C11 | computeHuffmanCodes | arithmetic of canonical codes |
| C12 | serializeShape, deserializeShape | C06 + C04 |
| C13 | HuffmanEncoder/Decoder block functions | canonical decoding + gamma codes |
| C14 | BitEncoder, BitDecoder | interval invariant |
| C15 | BitEncoder | same invariant |
| C16 | predictors and FSM models | interval invariant per predictor |
| C17 | SimpleMarkov | refutation witness |
| C18 | FSM/predictors reset | bisimulation; refutation witness for FSM8 |
| C19 | gammaCode, fixedIntegerCode | arithmetic |
| C20 | wavelet tree as binary tree with bit vectors | induction on tree |
| C21 | treeShape, readShape | C03, C06, C04, canonical codes |
| C22 | encodeTreeBF, decodeTreeBF, block functions | lock-step simulation of coder and decoder |
| C23 | bitsForIntegers, findParameters | refutation witness, exact condition by cases over the two loops |
| C24 | BWTBlock header | bit list concatenation |
| C25 | RawOutStream over an abstract file | refinement |
| C26 | RawInStream over an abstract file | refinement; refutation of the end-of-data test |
| C27 | CircularBuffer over an array | refinement to a queue |
| C28 | sliceIntoBlocks | induction |
| C29 | section computation and (de)serialisation | induction over the frequency table |
| C30 | PrecompressorBlock header | C01 + C31 |
| C31 | Grammar serialisation | composition of small codecs |
| C32 | numberOfSpecialPair, specialPair | arithmetic |
| C33 | PairReplacer, Grammar, Postprocessor | homomorphic expansion, induction over rounds |
| C34 | both writeReplacedVersion | C27 + potential argument |
| C35 | FrequencyTable | invariant; refutation witness |
| C36 | BWT definition via sorted suffixes, FastInverseBWTransform | LF mapping |
| C37 | MtlSaInverseBWTransform | LF mapping on pairs |
| C38 | divbwtf/saisxx frequency counting | counting |
| C39 | Compressor, Decompressor | composition |
| C40 | Compressor | composition |
| C41 | decoder loops with fuel | refutation witness |
| C42 | Compressor with block size 0 | refutation witness |
| C43 | MinimumHeap | heap invariant |
| C44 | preprocess.cpp, postprocess.cpp | C30, C33, induction over the blocks |
| C45 | sais.hxx | rank of a suffix as the specification of its row; one invariant for the upward and one for the downward scans; LMS substrings by their sorted order; induction over the recursion |
| C46 | saisxx_bwt, compressor with SA-IS | C45, C36-C39 |
| C47 | encodeSection, compressor | C10 against a code of eight bits, lengths of gamma codes, at least 10000 bytes per section |
| C48 | compress.cpp, double arithmetic of Compressor.cpp, PairReplacer.cpp 326, Precompressor.cpp 78 | relative error of conversion, product and quotient of doubles; C39, C46 |
| C49 | as C33, C34; SpecTriple | what the chosen pairs save exceeds what freed and special symbols cost by 1000; a pair of equal bytes is counted at most once too often per triple; cubes of the next round come from cubes of this one |
| C50 | as C49; SpecTotal | the planned symbols fit (256 and the special pairs available bound each loop); the table and the grammar are built without violating an assertion; rounds by induction; the program by C48 |
| C51 | as C48 and C49; the bounds are numbers | C47 summed over the slices and blocks; a slice has at least 184999 bytes per megabyte except the last (C48's floating-point bounds); the header is at most seven bytes per rule (right-hand sides of at most four bytes, variables of at most two) |
| C52 | the other models of probmodels | one invariant per model (C16); components through the states they can reach; the recursion of DMC by induction on the fuel from the state before the last bit |
| C53 | compress.cpp with the wavelet coders; SpecStops | C39_wavelet_exactly with the block sizes of C48; three different run lengths need six bytes |
| C54 | findReplaceables | usedSnd[0] stays true in all loops |
| C55 | calculateHuTuckerLengths | occurrences of a symbol in the forest never grow; Kraft's equality by induction on the tree; three and four symbols by cases |
| C56 | readPackedInteger (memory) | the loop inverts writePackedInteger on groups of seven bits; overlong input |
| C57 | createHuffmanShape, MinimumHeap, collectCodes | the heap returns the two lightest trees (C43), then the merging argument of C10 |
| C58 | totalBits, rank | each push adds one bit to each node on its path, and steps to a child only after the bit leading to it |

The table is brought up to date as proofs are completed; the status of every
property is in `MANIFEST.json`.

## Trusted base

* Coq's kernel (including `vm_compute`).
* Axioms: see the `Print Assumptions` output beneath every property theorem; the
  aim is *Closed under the global context* everywhere.
* The transcription of the C++ into Gallina (checked by reading and by mutation
  tests, `seeded/LOG.jsonl`).

## What is modelled

| C++ | model | not modelled |
|---|---|---|
| Utils.hpp, Utils.cpp: packing, codes, logs, runs, Huffman lengths, canonical codes, Hu-Tucker lengths | ModelUtils, ModelRuns, ModelHuffman, ModelHuTucker, ModelPackMem | printing in calculateHuTuckerLengths (Utils.cpp 393), `isPrefix`, `printBitRepresentation` |
| BitCoders.hpp/.cpp | ModelBitCoder | |
| probmodels: UnbiasedPredictor, EvenIntervalPredictor<4>, InversePredictor, FSM, FSM8, SimpleMarkov and the models the two factory functions and `giveProbabilityModel` return | ModelProb | - |
| probmodels: FrequencePredictor, EvenIntervalPredictor, BiasedOnePredictor, AggressiveOnePredictor, FSM with any number of states, FSM6, FSM9, LimitedHistoryModel, DMC (no factory returns them) | ModelProb2 | the queue type of DMC (a list) |
| Streams.hpp/.cpp, CircularBuffer (Utils.hpp 47-90) | ModelStreams | the C library and the file system (an abstract file); write errors |
| BWTBlock.cpp headers, section code of both entropy coders, sliceIntoBlocks | ModelHeaders | |
| HuffmanCoders.cpp | ModelHuffman, ModelHuffmanCoder | profiling and verbose output, failed allocation; the decoder writing behind the memory of the block is not detected |
| bwtransforms: BWTransform.cpp, BWTManager::doTransform, the tails of divbwtf and saisxx_bwt, InverseBWT.cpp, MtlSaInverseBWT.cpp | ModelBWT | the suffix sorting inside divsufsort (oracle: any list that sorts the suffixes); the starting points and the transformed text these write are the ranks and characters that list determines; memory from `new[]` reads as zero; 16-bit halves of 32-bit words follow little endian byte order |
| preprocessors: FrequencyTable.cpp | ModelFreq | the order std::sort gives to equal frequencies (any) |
| preprocessors: Grammar.hpp/.cpp, Postprocessor.cpp, headers of PrecompressorBlock.cpp | ModelGrammar | verbose output; `Grammar::printRules` and friends |
| Compressor.cpp, Decompressor.cpp, EntropyCoders.cpp | ModelFile | the `double` arithmetic on the memory limit (Compressor.cpp 77-79, 96) is in ModelMain; more than one thread (both functions return 0 without doing anything); the streams are byte and bit lists, justified by C25 and C26 |
| WaveletTree.hpp, WaveletCoders.cpp | ModelWavelet, ModelHeap (MinimumHeap), ModelShape (`createHuffmanShape`, without bit vectors), ModelTreeSize (`rank`, `totalBits`) | the `double` comparisons of `findParameters` and `bitsForIntegers` (oracle `worth`); the constructors no coder uses; nodes are a trie addressed by bit paths instead of pointers; memory management |
| preprocessors: PairReplacer.hpp/.cpp, Precompressor.cpp | ModelPairs, ModelSort | other preprocessors than 'p' (the command line admits no other); the `double` arithmetic of Precompressor.cpp and PairReplacer.cpp 326 is in ModelMain, here it is an oracle |
| preprocess.cpp, postprocess.cpp | ModelPrograms | command line, verbose output |
| bwtransforms: sais.hxx, SA-IS-bwt.cpp (the versions with counters) | ModelSais, ModelSaisFile | `int` is unbounded (values up to twice the length are stored where the length is at most 2^30-1, otherwise up to the length); failed allocation; C, B and D are separate arrays, in the C++ they may lie behind the elements of SA in use, or C and B may coincide and are then counted again |
| compress.cpp, double arithmetic | ModelMain | parsing of the command line, opening files, verbose output, running out of memory; other rounding than to nearest, excess precision |

Simplifications are stated in the comment of the definition concerned.  Everything not
listed (uncompress.cpp, which only calls `Decompressor::decompress`) is not modelled.

## Findings (behaviour of the code that contradicts the natural property)

Each is proved by the theorem named in brackets.

* C01 `packInteger` of 2^56 needs a ninth byte: it shifts by 64 and fails its assertion
  (`C01_from_2_pow_56_refuted`).
* C02 `packAndWriteInteger(0)` writes nothing, so the byte that follows is read instead
  (`C02_zero_refuted`).
* C05 `binaryCode` evaluates `1 << codeLength` in `int`, undefined for the range [0, 2^30]
  (`C05_wide_range_refuted`).
* C07 `logCeiling` evaluates `1 << log` in `int`, undefined at 2^31
  (`C07_logCeiling_wide_refuted`).
* C08 `calculateRunFrequencies` reads the first byte of an empty block
  (`C08_empty_refuted`).
* C11 canonical codes need not be prefix free when the Kraft sum is below 1
  (`C11_incomplete_code_refuted`).
* C12 a maximal code length of 128 or more takes two bytes, which are written high byte
  first and read low byte first (`C12_long_code_refuted`).  The encoder does not produce
  such lengths (C09_length_bound).
* C13 the gamma code of a run of 2^29 bytes has 59 bits.  With 6 or 7 bits (modulo 8)
  pending the encoder drains below zero and shifts by a negative amount
  (`C13_long_run_refuted`).
* C17 the models 'm' and 'M' shift by a negative amount after one zero bit
  (`C17_negative_shift_refuted`) and index one past their table after 8 resp. 16 one bits
  (`C17_index_refuted`).
* C18 the default model 'B' (FSM8) keeps its automaton state over `resetModel`
  (`C18_default_model_refuted`).
* C24 a header with no starting points is read back as having some
  (`C24_no_starting_points_refuted`).
* C26 the end-of-data test answers yes with one byte left, when that byte is in the buffer
  and `fread` has already seen the end of the file (`C26_one_byte_left_refuted`).
* C28 block size 2^31-2, the value `Compressor::compress` clamps to, fails the assertion
  in `sliceIntoBlocks` (`C28_largest_block_size_refuted`).
* C29 the section count of an empty block is 0, which the reader takes for a non-empty
  list of sections (`C29_empty_block_refuted`).
* C30 a block header with size 0 is taken for the end of the file
  (`C30_size_zero_refuted`; the compressor writes no empty blocks).
* C34 pair replacement of a block of one or two bytes fails `assert(length > 2)`
  (`C34_two_bytes_refuted`).  Writing a block of three bytes in place loses its last byte,
  because the buffer is larger than the block and its contents are taken with a limit of
  `length - 1` (`C34_short_block_refuted`).  The last symbol of a block is pushed as two
  bytes without looking whether the buffer is full, which fails the assertion in
  `CircularBuffer::consume` for a block of 6068 bytes (`C34_full_buffer_refuted`).
* C33 holds for every block the precompressor finishes, provided each round written in place
  has room in its buffer (`roundsFit`): the code neither checks this nor guarantees it, and
  `CircularBuffer::push` overwrites the oldest element of a full buffer.  The buffer of a
  third of the block relies on pair frequencies, which count overlapping pairs of equal
  symbols in runs too often.  C49 proves the condition for blocks with few repetitions.
* C33, C39 the same counting makes a block longer: "aaa" at an even position counts as two
  pairs "aa" (PairReplacer.hpp 47-67) while only one can be replaced.  A block of 89954 bytes
  with 670 times "111x" and "222x" gets four symbols freed or made special, all to be written
  as two bytes, for fewer replacements than that costs: the first round gives 89958 bytes
  where there is memory for 89955 (`C33_growth_refuted`, `C39_growth_refuted`; any number of
  rounds, any entropy coder).
* C35 removing a symbol from a table from which nothing was removed before always reads
  `m_frequencies[256]` (`C35_remove_reads_outside`); increasing a symbol after a removal
  lists the removed symbol again (`C35_increase_after_remove_refuted`; the compressor never
  does this).
* C39 with pair replacement a file of three bytes is compressed to an archive on which the
  decompressor fails `assert(postSize == pb->originalSize())` (`C39_three_bytes_refuted`);
  files of one or two bytes fail the assertion of C34 (`C39_two_bytes_refuted`).  The same
  happens to any file whose last precompressor block has that size.
* C41 decompressing the empty file, or any archive without its last byte, reads an integer
  from behind the end of the data, where all bits are 1: it has no last byte and the shift
  leaves the 64-bit word (`C41_truncated_refuted`).
* C42 a memory limit below 6 bytes makes the BWT block size 0; without preprocessing every
  file then gives the archive of the empty file (`C42_small_limit_refuted`); with
  preprocessing `sliceIntoBlocks` does not end when (limit - size)/4.5 is below 1
  (`C42_no_slices_refuted`).  The command line program passes multiples of
  10^6 modulo 2^64 (C48).
* C44 the program preprocess loses the last byte of a block of three bytes, and postprocess,
  which does not know the original size, writes two bytes without noticing
  (`C44_three_bytes_refuted`).  The block size on the command line is multiplied by 1024
  modulo 2^64 (`C44_block_size_refuted`).
* C48 `compress -m` with 11609 megabytes or more clamps the block size to 2^31-2, which fails the
  assertion of C28: no file but the empty one is compressed (`C48_much_memory_refuted`).  The
  megabytes are multiplied by 10^6 modulo 2^64; with 2^58 the limit is 0 and every file gives the
  archive of the empty file (`C48_wrapped_limit_refuted`).
* C49 the loss of the last byte (C34, C39) happens to blocks of four bytes as well, not only of
  three, since the buffer holds at least four bytes (PairReplacer.cpp 323-326):
  `compress -e H --prepr p` of the file 1 2 3 4 succeeds, decompressing fails
  (`C49_four_bytes_refuted`).
* C52 FrequencePredictor divides 4096 by the number of bits: once that and twice its constant
  exceed 4096 it predicts 0 for ever (`C52_frequence`).  `resetModel` of AggressiveOnePredictor keeps
  the step, FSM6 and FSM9 keep the state, LimitedHistoryModel keeps everything
  (`C52_reset_refuted`).  `DMC::update` assigns through a reference and so copies the next state
  over the current one (DMC.hpp 85, 88); the static assertion (139) therefore does not prevent the
  replayed bits from using up the states again, and the recursion never ends for 29 bits with
  SplitLimit 6, MaxStates 6, Delay 4, BufferSize 29 (`C52_dmc_recursion_refuted`).
* C53 with its default options the program cannot compress the file "bbbaaa"
  (`C53_six_bytes_refuted`), nor any file with a block as described under C23 below.
* C54 `bool usedSnd[256] = {true}` (PairReplacer.cpp 133) sets only the first element: pairs
  beginning with the byte 0 are never replaced (`C54_never_chosen`, `C54_zero_refuted`).
* C55 calculateHuTuckerLengths (its only call, WaveletTree.hpp 349, is commented out) forgets symbols: with
  three symbols the third gets no code unless it is rarer than the first (`C55_three`,
  `C55_lost_refuted`), and with four symbols a null pointer is followed in line 342 whenever the first
  is at most as frequent as the third (`C55_null_refuted`).  What it returns is always a complete code
  of the symbols that are left (`C55_kraft`).
* C56 the end symbol 2^63 that readPackedInteger returns for the bytes 128 and 0 (Utils.cpp 495) is written
  as eight bytes of which the first is 0, and so read back as 0 (`C56_end_symbol_refuted`).  No caller.
* C57 createHuffmanShape takes the minimum of an empty heap if no symbol occurs (`C57_none_refuted`).
  Only the tests call it.
* C23 `bitsForIntegers` dereferences `rend()` (WaveletTree.hpp 1596-1602) when depth is 3,
  no run length was removed and all run lengths (at least three) have the same frequency;
  when each occurs fewer than ten times this does not depend on the floating point
  comparisons.  The block "abbccc" (after the transform) is enough
  (`C23_end_of_frequencies_refuted`); `C23_exactly` says exactly when it happens,
  `C23_blocks` and `C39_wavelet_exactly` for blocks and files.  The file "bbbaaa" cannot be
  compressed with the wavelet coders (`C39_wavelet_six_bytes_refuted`).
* Wavelet coder, without consequence for the data: the encoder does not sort its list of
  code lengths before assigning integer codes while the decoder does; the lists agree because
  the swapping loop before it never acts (used in the proof of `C21_shape`).  `realDepth`
  is taken from the wrong component of a pair and always 0.  The decoder may reset its model of
  the integer codes once more than the encoder, behind the last use.
* Wavelet coder: run lengths from 2^30 on make `binaryCode` shift into the sign bit when the
  shape is written (C05).

{"id": "C01", "title": "Byte-packed integers survive packing and unpacking", "statement": "For every integer below 2^56, packInteger followed by unpackInteger returns the integer; the announced byte count is the number of bytes that carry the value (1 for zero), is at most 8, and writing exactly these bytes (little end first) and reading them with the bit-stream reader readPackedInteger returns the integer, reports the same byte count and leaves the rest of the stream untouched.", "quantifier": "all integers 0 <= v < 2^56 and all byte strings that may follow the packed integer", "why_tests_cant": "There are 2^56 values; the unit test tries eleven of them, none above 2^23.", "anchors": ["Utils.cpp:packInteger", "Utils.cpp:unpackInteger", "Utils.cpp:writePackedInteger", "Utils.hpp:readPackedInteger", "PrecompressorBlock.cpp:writeBlockHeader"]}
{"id": "C02", "title": "Direct integer serialisation round trip", "statement": "For every non-zero 64-bit integer, packAndWriteInteger writes at most 10 bytes and readAndUnpackInteger, pointed at the first of them, returns the same integer and the same byte count whatever follows. For zero it writes no byte at all, so the pair is not an inverse there.", "quantifier": "all integers 1 <= v < 2^64, all trailing bytes; plus the single value 0", "why_tests_cant": "2^64 inputs; the failure at 0 is exactly a boundary value, and no unit test calls the pair.", "anchors": ["Utils.cpp:packAndWriteInteger", "Utils.cpp:readAndUnpackInteger"]}
{"id": "C03", "title": "Bit-reversed packed integers in bit streams", "statement": "Pushing a packed integer with pushBitsRev (low bit first) and reading it back with readPackedIntegerRev yields the integer and its byte count and consumes exactly those bits, at any bit offset of the stream.", "quantifier": "all integers below 2^56, all following bits", "why_tests_cant": "Unbounded set of values and suffixes.", "anchors": ["Utils.hpp:pushBitsRev", "Utils.hpp:readPackedIntegerRev", "WaveletTree.hpp:treeShape", "WaveletTree.hpp:readShape"]}
{"id": "C04", "title": "Unary code", "statement": "For every n >= 1 the unary code of n has exactly n bits, unaryDecode returns n and consumes exactly n bits, whatever follows.", "quantifier": "all n >= 1 and all following bits", "why_tests_cant": "Unbounded n and suffixes.", "anchors": ["Utils.hpp:unaryCode", "Utils.hpp:unaryDecode"]}
{"id": "C05", "title": "Bounded binary code", "statement": "For every range [lo,hi] of at most 2^30 values and every n in it, decoding the minimal binary code of n with the same bounds returns n, consumes exactly the coded bits, reports that many bits, and the code has floor or ceil of log2 of the range length bits.", "quantifier": "all lo <= n <= hi < 2^63 with hi-lo+1 <= 2^30, all following bits", "why_tests_cant": "Unbounded ranges; unit tests try a few lists only. The int shift in logCeiling/binaryCode breaks wider ranges.", "anchors": ["Utils.hpp:binaryCode", "Utils.hpp:binaryDecode", "Utils.hpp:logCeiling"]}
{"id": "C06", "title": "Binary interpolative code", "statement": "For every strictly increasing non-empty list of integers within [0,max], decoding its interpolative code with the same max and number of elements returns the list, consumes exactly the coded bits and returns their number.", "quantifier": "all strictly increasing lists, all max < 2^30, all following bits", "why_tests_cant": "Recursive on list structure and ranges; lists and ranges unbounded.", "anchors": ["Utils.hpp:binaryInterpolativeCode", "Utils.hpp:binaryInterpolativeDecode"]}
{"id": "C07", "title": "Logarithms and most significant bit", "statement": "logFloor(n) is floor(log2 n) for every 64-bit n > 0 (both implementations agree) and mostSignificantBit(n) is 2^floor(log2 n) (0 for 0) for every 32-bit n; logCeiling(n) is ceil(log2 n) for every 0 < n < 2^31, and from 2^31 on it shifts an int out of range.", "quantifier": "all 64-bit (resp. 32-bit, 31-bit) integers", "why_tests_cant": "2^32 values.", "anchors": ["Utils.hpp:logFloor", "Utils.hpp:logCeiling", "Utils.cpp:mostSignificantBit", "Utils.cpp:mostSignificantBit16"]}
{"id": "C08", "title": "Run splitting is exact", "statement": "For every non-empty byte string, the run characters and run lengths reported describe the string exactly: expanding them yields the string, neighbouring runs have different characters, every length is at least 1, the number of runs is returned, each character's counter grows by its number of runs and each run length's counter by its number of occurrences.", "quantifier": "all non-empty byte strings", "why_tests_cant": "Inputs of unbounded length; the do/while with the trailing single character has corner cases.", "anchors": ["Utils.cpp:calculateRunFrequencies", "Utils.cpp:calculateRunsAndCharacters", "Utils.cpp:calculateRunFrequenciesAndStoreRuns"]}
{"id": "C09", "title": "Computed code lengths form a complete prefix code", "statement": "For every frequency table with at least two non-zero entries the code lengths computed by calculateHuffmanLengths satisfy Kraft's equality (sum of 2^-len = 1), exactly the symbols with non-zero frequency get a length, each once, and the lengths are non-increasing in the returned order (symbols in non-decreasing order of frequency).", "quantifier": "all frequency tables over any alphabet size whose sum fits in 64 bits", "why_tests_cant": "Unbounded frequency tables; an in-place two-phase array algorithm.", "anchors": ["Utils.cpp:calculateHuffmanLengths", "Utils.cpp:calculateCodeLengths"]}
{"id": "C10", "title": "Computed code lengths are optimal", "statement": "For every frequency table with at least two non-zero entries, no prefix code for the same symbols has smaller total weighted length than the lengths computed by calculateHuffmanLengths.", "quantifier": "all frequency tables with at least two non-zero entries and a sum below 2^64, all competing prefix codes", "why_tests_cant": "Quantifies over all codes and all tables.", "anchors": ["Utils.cpp:calculateHuffmanLengths", "Utils.cpp:calculateCodeLengths"]}
{"id": "C11", "title": "Canonical codes are prefix free", "statement": "For every complete assignment of lengths (Kraft sum 1, zero meaning unused) and for the one-symbol table, computeHuffmanCodes gives every used symbol a codeword of its length with a value below 256, codewords of different symbols are never prefixes of one another, within one length they are consecutive in symbol order, and longer codewords come first. For tables that only satisfy Kraft's inequality this is false.", "quantifier": "all complete length tables over 256 symbols with lengths below 256", "why_tests_cant": "Quantifies over all length tables.", "anchors": ["Utils.cpp:computeHuffmanCodes", "Utils.cpp:isPrefix"]}
{"id": "C12", "title": "Huffman table serialisation", "statement": "The byte-alphabet code-length table written into the compressed stream is read back as the same table, and the reader consumes exactly the written bits.", "quantifier": "all code-length tables with at least one used symbol and lengths below 128; all following bytes", "why_tests_cant": "All subsets of 256 symbols times all length assignments.", "anchors": ["HuffmanCoders.cpp:HuffmanEncoder::serializeShape", "HuffmanCoders.cpp:HuffmanDecoder::deserializeShape"]}
{"id": "C13", "title": "Huffman entropy coder block round trip", "statement": "A block compressed by the 'H' entropy coder and decoded by its decoder yields the same starting points and the same bytes, for any content and any character statistics (sections), the decoder ends exactly at the end of the block's data, and the size the encoder returns is the number of bytes written. Runs of 2^29 or more equal bytes are excluded: the encoder's bit buffer overflows (refuted).", "quantifier": "all non-empty transformed blocks below 2 GiB with runs below 2^29, all starting points, all following bytes", "why_tests_cant": "Unbounded inputs; table-driven decoding, run lengths crossing byte boundaries.", "anchors": ["HuffmanCoders.cpp:HuffmanEncoder::encodeData", "HuffmanCoders.cpp:HuffmanDecoder::decodeBlock"]}
{"id": "C14", "title": "Binary range coder round trip", "statement": "For every sequence of bits and every sequence of probabilities strictly between 0 and 4096, decoding with the same probabilities returns the bits; the decoder has then consumed exactly the bytes the encoder emitted, so that data following the coded section is intact.", "quantifier": "all bit sequences of any length, all probability sequences (also chosen adaptively), all following bytes", "why_tests_cant": "Sequences are unbounded; carry/renormalisation corner cases are astronomically rare in tests.", "anchors": ["BitCoders.cpp:BitEncoder::encode", "BitCoders.cpp:BitEncoder::finish", "BitCoders.cpp:BitDecoder::start", "BitCoders.cpp:BitDecoder::decode"]}
{"id": "C15", "title": "Range coder output bound and counter", "statement": "The number of bytes the encoder reports equals the number written, at most 4 bytes are emitted per coded bit, and finishing emits exactly 4 bytes.", "quantifier": "all bit and probability sequences", "why_tests_cant": "Unbounded sequences.", "anchors": ["BitCoders.cpp:BitEncoder::encode", "BitCoders.cpp:BitEncoder::finish", "BitCoders.hpp:BitEncoder::counter"]}
{"id": "C16", "title": "Predicted probabilities stay codable", "statement": "Whatever bits are coded, every probability delivered by the predictors used by the default, 'b' and 'u' models, by the integer-code model and by the gap model lies strictly between 0 and the probability scale 4096.", "quantifier": "all update histories (including resets) of each model", "why_tests_cant": "Histories are unbounded; rounding of the predictors' shift arithmetic near the limits decides.", "anchors": ["probmodels/BitPredictors.hpp", "probmodels/FSM.hpp", "probmodels/ProbabilityModel.cpp:giveProbabilityModel"]}
{"id": "C17", "title": "Short-history models stay inside their tables", "statement": "The models selected by 'm' and 'M' never index outside their history table and never shift by a negative amount, whatever bits are coded. (Suspected false.)", "quantifier": "all bit histories", "why_tests_cant": "Depends on long runs of one-bits only reached by particular histories.", "anchors": ["probmodels/ProbabilityModel.cpp:SimpleMarkov", "probmodels/ProbabilityModel.hpp:SimpleMarkov"]}
{"id": "C18", "title": "Model reset restores the initial state", "statement": "After resetModel the model predicts as a fresh model does. Holds for the integer-code and gap models and for 'u'/'b'; fails for the default 'B' model, whose automaton state survives the reset.", "quantifier": "all histories before the reset and all bit sequences after it", "why_tests_cant": "Needs all histories before the reset.", "anchors": ["probmodels/FSM.hpp:FSM", "probmodels/FSM.hpp:FSM8", "probmodels/BitPredictors.hpp"]}
{"id": "C19", "title": "Run-length integer codes of the wavelet coder", "statement": "The gamma-like and the semi-fixed integer codes are decodable: each run length's codeword is recovered by the decoder's reading rule, no matter what follows.", "quantifier": "all run lengths from 1 to 2^32-1 and all parameters 0..15 for the semi-fixed code; all integers from 1 to 2^64-1 for the gamma-like code; all following bits", "why_tests_cant": "Unbounded integers.", "anchors": ["WaveletTree.hpp:gammaCode", "WaveletTree.hpp:fixedIntegerCode", "WaveletTree.hpp:lengthOfFixedCode"]}
{"id": "C20", "title": "Wavelet tree reproduces its message", "statement": "Building the wavelet tree of a byte string from its runs, with the codes the encoder chooses, and reading the message back yields the string.", "quantifier": "all non-empty byte strings shorter than 2^31 whose tree is built without undefined behaviour; every outcome of the floating point comparisons that choose the codes of run lengths", "why_tests_cant": "All strings, all tree shapes.", "anchors": ["WaveletTree.hpp:pushRun", "WaveletTree.hpp:pushMessage", "WaveletTree.hpp:message"]}
{"id": "C21", "title": "Wavelet tree shape serialisation", "statement": "Reading the bits written by treeShape reconstructs the same codes for characters and for run lengths and consumes exactly those bits.", "quantifier": "the tree of every string (runs shorter than 2^30) built without undefined behaviour, every choice of run length codes, all following bits", "why_tests_cant": "All code tables for up to 256 characters and unboundedly many run lengths.", "anchors": ["WaveletTree.hpp:treeShape", "WaveletTree.hpp:readShape", "WaveletTree.hpp:assignPrefixCodes"]}
{"id": "C22", "title": "Wavelet entropy coder block round trip", "statement": "A block compressed by a wavelet entropy coder and decoded by the corresponding decoder yields the same bytes and starting points; the decoder ends exactly at the end of the block's data with its models in the encoder's state; the reported size is the number of bytes written.", "quantifier": "all non-empty transformed blocks below 2^30 bytes on which the encoder does not run into undefined behaviour; every outcome of the floating point comparisons; every probability model of the bit vectors and of the gaps, and every model of the run-length codes for which resetting twice is resetting once; all bytes written before and following", "why_tests_cant": "Unbounded inputs and adaptive state shared between encoder and decoder.", "anchors": ["WaveletCoders.cpp:WaveletEncoder::encodeData", "WaveletCoders.cpp:WaveletDecoder::decodeBlock", "WaveletTree.hpp:encodeTreeBF", "WaveletTree.hpp:decodeTreeBF"]}
{"id": "C23", "title": "Choosing run-length codes and the end of the list of run lengths", "statement": "While choosing codes for run lengths the encoder dereferences the end of the list of run lengths exactly when at least three lengths of runs occur, all of them equally often, and either each occurs fewer than 10 times or for one of the 16 code parameters the cost comparison refuses a code to every length; three runs of pairwise different lengths are enough. In all other cases the tree is built, and a block all of whose sections are such cases is encoded. In particular it is built whenever two lengths occur differently often, or there are at most two lengths. (The wished-for property, that the end is never dereferenced, is refuted.)", "quantifier": "all non-empty strings shorter than 2^31 bytes; every outcome of the floating point comparisons; for the refutation a concrete string of 6 bytes", "why_tests_cant": "Needs a particular combination of equal frequencies and depth.", "anchors": ["WaveletTree.hpp:bitsForIntegers"]}
{"id": "C24", "title": "BWT block header round trip", "statement": "The starting points written in a BWT block header are read back unchanged, header sizes agree, and the reader stops exactly behind the header.", "quantifier": "all lists of 1..256 starting points, each below 2^31; all following bytes", "why_tests_cant": "256 numbers of 31 bits packed across byte borders.", "anchors": ["BWTBlock.cpp:BWTBlock::writeHeader", "BWTBlock.cpp:BWTBlock::readHeader", "BWTBlock.cpp:BWTBlock::prepareLFpowers"]}
{"id": "C25", "title": "Output stream produces exactly the written bytes", "statement": "For every sequence of writeByte, writeBlock, flush and write48bits calls the bytes in the file after flushing are the written bytes in order, with each write48bits having replaced exactly the six bytes at its position by the big-endian value; getPos is always the number of bytes written so far.", "quantifier": "all finite sequences of operations, block sizes unbounded (crossing the 64 KiB buffer arbitrarily)", "why_tests_cant": "Interleavings of buffer boundaries and seeks.", "anchors": ["Streams.cpp:RawOutStream", "Streams.hpp:RawOutStream"]}
{"id": "C26", "title": "Input stream delivers exactly the file's bits", "statement": "For every file and every sequence of readBit, readByte, readBlock, read48bits and flushBuffer calls in the order the decoders use, the results are the file's bytes/bits most significant bit first, independent of the refill boundaries of the internal buffer; the end of data is reported exactly at the end of the file, except that with exactly one byte left it may be reported one byte early (refuted).", "quantifier": "all files and all call sequences", "why_tests_cant": "Unbounded sequences; boundary effects every 64 KiB.", "anchors": ["Streams.cpp:RawInStream", "Streams.hpp:RawInStream"]}
{"id": "C27", "title": "Circular buffer is a FIFO queue", "statement": "As long as nothing is pushed into a full buffer, the elements consumed are the elements pushed, in order, consume returns min(requested, stored), and full() holds exactly when the number of stored elements reached the capacity.", "quantifier": "all capacities >= 1 and all sequences of push and consume", "why_tests_cant": "Wrap-around states are reached only by particular operation sequences.", "anchors": ["Utils.hpp:CircularBuffer"]}
{"id": "C28", "title": "Slicing into blocks loses nothing", "statement": "Slicing a precompressed block into BWT blocks of a positive maximal size yields consecutive, disjoint, non-empty slices no longer than the maximum that together are the whole data, in order.", "quantifier": "all data lengths below the reserved memory and all positive block sizes below 2^31-2", "why_tests_cant": "Unbounded lengths.", "anchors": ["PrecompressorBlock.cpp:PrecompressorBlock::sliceIntoBlocks"]}
{"id": "C29", "title": "Entropy-coder sections cover the block", "statement": "The section lengths written in a block header are what the reader returns; they are non-zero and add up to the block length, and there are at most 256 of them.", "quantifier": "all byte-frequency tables of non-empty blocks", "why_tests_cant": "All frequency tables.", "anchors": ["HuffmanCoders.cpp:HuffmanEncoder::writeBlockHeader", "HuffmanCoders.cpp:HuffmanDecoder::readBlockHeader", "WaveletCoders.cpp:WaveletEncoder::writeBlockHeader", "WaveletCoders.cpp:WaveletDecoder::readBlockHeader"]}
{"id": "C30", "title": "Precompressor block header round trip", "statement": "Reading the header of a precompressed block returns the written size, number of slices and grammar and stops exactly behind it; the end marker is recognised and never confused with a block header.", "quantifier": "all positive sizes below 2^56, all grammars the precompressor can build", "why_tests_cant": "Unbounded sizes and grammars.", "anchors": ["PrecompressorBlock.cpp:PrecompressorBlock::writeBlockHeader", "PrecompressorBlock.cpp:PrecompressorBlock::readBlockHeader", "PrecompressorBlock.cpp:PrecompressorBlock::writeEmptyHeader"]}
{"id": "C31", "title": "Grammar serialisation round trip", "statement": "A grammar written after precompression is read back with the same rules, special symbols and freed symbols.", "quantifier": "all grammars the precompressor can build", "why_tests_cant": "All rule lists; run-length-ish flag encodings.", "anchors": ["preprocessors/Grammar.cpp:Grammar::writeGrammar", "preprocessors/Grammar.cpp:Grammar::readGrammar"]}
{"id": "C32", "title": "Pairs of special symbols number uniquely", "statement": "With s special symbols, the numbering of special-symbol pairs is a bijection between 0..s^2-1 and ordered pairs of specials, and the numbers of existing pairs do not change when a special symbol is added.", "quantifier": "all s and all pairs", "why_tests_cant": "All s.", "anchors": ["preprocessors/Grammar.cpp:Grammar::numberOfSpecialPair", "preprocessors/Grammar.cpp:Grammar::specialPair"]}
{"id": "C33", "title": "Precompression is undone by postprocessing", "statement": "For every block and every number of pair-replacement rounds: if the precompressor finishes the block (no assertion fails) and each round that rewrites the block in place has room in its buffer, expanding the precompressed block with the recorded grammar, also after writing it to and reading it from the block header, gives back the original block. Not every block is finished: there is one of 89954 bytes that the first round makes four bytes longer, three more than fit into its memory.", "quantifier": "all byte blocks below 2^31 bytes, up to 10^6 rounds, every order of equally frequent symbols, every buffer size, every moment of switching to a second array", "why_tests_cant": "All inputs; escapes interact with freed symbols and multiple rounds.", "anchors": ["preprocessors/PairReplacer.cpp", "preprocessors/Postprocessor.cpp:Postprocessor::uncompress", "preprocessors/Precompressor.cpp:Precompressor::precompress"]}
{"id": "C34", "title": "In-place replacement equals buffered replacement", "statement": "Rewriting a block in place through the circular buffer gives the same bytes and the same length as rewriting into a separate array, so it never overwrites input that has not been read, as long as the buffer has room for the symbols that are written as two bytes and two more. (The pure claim for all blocks is false: short blocks lose a byte, and a full buffer at the last symbol fails an assertion.)", "quantifier": "all blocks, all replacement tables, all buffer sizes smaller than the block that have the room", "why_tests_cant": "Depends on the whole history of expansions and contractions within a block.", "anchors": ["preprocessors/PairReplacer.cpp:PairReplacer::writeReplacedVersion"]}
{"id": "C35", "title": "Symbol frequency table stays ordered and consistent", "statement": "After any sequence of permitted increase/decrease/remove operations the table lists symbols in order of frequency and location lookups are correct; reads stay inside the table.", "quantifier": "all operation sequences", "why_tests_cant": "All sequences of updates.", "anchors": ["preprocessors/FrequencyTable.cpp"]}
{"id": "C36", "title": "Inverse Burrows-Wheeler transform, basic variant", "statement": "For every text, transforming and inverting with the list-traversing inverse gives back the text.", "quantifier": "all texts of length 1 .. 2^31-2", "why_tests_cant": "All texts.", "anchors": ["bwtransforms/BWTransform.cpp:BWTransform::doTransform", "bwtransforms/InverseBWT.cpp:FastInverseBWTransform::doTransform"]}
{"id": "C37", "title": "Inverse Burrows-Wheeler transform, multi-point variant", "statement": "For every text and every number of starting points 1..256, transforming and inverting with the two-symbols-at-a-time inverse gives back the text.", "quantifier": "all texts and all numbers of starting points", "why_tests_cant": "All texts; odd/even lengths, starting-point remainders.", "anchors": ["bwtransforms/MtlSaInverseBWT.cpp:MtlSaInverseBWTransform::doTransform"]}
{"id": "C38", "title": "Block statistics gathered during the transform are right", "statement": "The character statistics handed to the entropy coder are exactly the character counts of the transformed block, so that the sections it derives cover the block.", "quantifier": "all blocks", "why_tests_cant": "All blocks.", "anchors": ["bwtransforms/BWTransform.cpp", "bwtransforms/SA-IS-bwt.cpp", "bwtransforms/divsufsort.c:divbwtf", "bwtransforms/sais.hxx:saisxx_bwt"]}
{"id": "C39", "title": "Whole-file round trip", "statement": "Whenever compress finishes, decompressing what it wrote gives back the input file, for every input, number of pair-replacement rounds, entropy coder, number of starting points and positive block sizes; with pair replacement, for blocks that do not grow and whose in-place rounds have room in their buffer (without this condition there are counterexamples: a three-byte file). Without pair replacement compress finishes on every file with the Huffman coder, and with a wavelet coder exactly on the files without a block whose transform has a section on which choosing run-length codes fails (C23): the six-byte file bbbaaa cannot be compressed with a wavelet coder. Neither can a file of 89954 bytes that grows under pair replacement be compressed with it, whatever the entropy coder.", "quantifier": "all files, all entropy coder characters, up to 10^6 rounds, precompressor blocks below 2^31 and BWT blocks below 2^29 (Huffman) or 2^30 (wavelet) bytes", "why_tests_cant": "All files and options.", "anchors": ["Compressor.cpp:Compressor::compress", "Decompressor.cpp:Decompressor::decompress"]}
{"id": "C40", "title": "Reported compressed size", "statement": "Whenever compress finishes, the number it returns equals the size of the written file, under the conditions of C39.", "quantifier": "as C39", "why_tests_cant": "All files.", "anchors": ["Compressor.cpp:Compressor::compress"]}
{"id": "C41", "title": "Truncated input makes the decompressor run past its data", "statement": "The hoped-for property 'decompressing any byte string ends with output or an error' is false: for the empty file and for every archive without its last byte the decompressor reads an integer past the end of the data, where all bits are set, and shifts beyond the word (undefined behaviour).", "quantifier": "all input files without preprocessing and all BWT block sizes below 2^29 (Huffman coder); the empty file", "why_tests_cant": "All byte strings including the empty file.", "anchors": ["Decompressor.cpp:Decompressor::decompress", "Utils.hpp:readPackedInteger", "Streams.cpp:RawInStream"]}
{"id": "C42", "title": "A memory limit that is too small loses the data or never ends", "statement": "The hoped-for property 'for every memory limit the archive represents the whole input' is false: when the limit yields BWT block size 0, every file is compressed to the archive of the empty file; with pair replacement and a zero quotient slicing never ends.", "quantifier": "all files; memory limits giving block size 0", "why_tests_cant": "A threshold value.", "anchors": ["Compressor.cpp:Compressor::compress"]}
{"id": "C43", "title": "Minimum heap yields elements in order", "statement": "Starting from an empty heap, every sequence of insertions and deletions that never deletes from an empty heap runs without undefined behaviour, and every deletion takes out one of the elements of least weight then in the heap; in particular extracting all elements yields them in non-decreasing order of weight and loses none.", "quantifier": "all sequences of calls, all weights, any type of values", "why_tests_cant": "All heaps.", "anchors": ["WaveletTree.hpp:MinimumHeap"]}
{"id": "C44", "title": "preprocess and postprocess programs", "statement": "Whenever the program preprocess finishes a file, and each round written in place has room in its buffer, postprocess gives back the file, for every number of rounds and positive block size; without options preprocess always finishes. Without the condition this is false: a file of three bytes silently comes back as two bytes. A block size of 2^54 kB makes every file empty.", "quantifier": "all files, block sizes below 2^31 bytes, up to 10^6 rounds", "why_tests_cant": "All files and options; the loss of a byte shows only for certain block sizes.", "anchors": ["preprocess.cpp:preprocess", "postprocess.cpp:postprocess", "PrecompressorBlock.cpp:PrecompressorBlock::readBlockHeader"]}
{"id": "C45", "title": "SA-IS computes suffix arrays", "statement": "saisxx(T, SA, n, k) fills SA with the starting positions of all suffixes of T in lexicographic order, for every text whose characters are below k > 0; none of its assertions fails and it neither reads nor writes outside of its arrays, in every branch of the choice of memory and sorting phase and at every level of recursion.", "quantifier": "all texts of any length, all alphabet sizes k", "why_tests_cant": "All texts; the correctness rests on the induced sorting of LMS substrings and on the names given to them, at every recursion level.", "anchors": ["bwtransforms/sais.hxx:saisxx", "bwtransforms/sais.hxx:suffixsort", "bwtransforms/sais.hxx:LMSsort1", "bwtransforms/sais.hxx:LMSsort2"]}
{"id": "C46", "title": "Option --bwt s is correct and gives the same archives", "statement": "The transform of SAISBWTransform gives for every block the rows, starting points and counters determined by the suffix array, and both inverse transforms restore the block; archives written with --bwt s are equal to those written with any other correct suffix sorter, and decompressing them gives back the file (under the conditions of C39).", "quantifier": "all blocks of 1 .. 2^31-2 bytes, all files, all numbers of starting points", "why_tests_cant": "All inputs; equality with any other correct sorter.", "anchors": ["bwtransforms/sais.hxx:saisxx_bwt", "bwtransforms/sais.hxx:computeBWT", "bwtransforms/SA-IS-bwt.cpp:SAISBWTransform::doTransform", "Compressor.cpp:Compressor::compress"]}
{"id": "C47", "title": "Archives cannot get much larger than the file", "statement": "With the Huffman coder a section of n bytes takes at most 9n/8 + 1677 bytes, and an archive written without pair replacement takes at most 1.3 bytes per byte of the file, 2697 bytes per block and two bytes more, whatever the file contains; nine bits per byte are reached.", "quantifier": "all sections, all files, all block sizes below 2^29, all starting point counts", "why_tests_cant": "Worst case over all inputs; needs the optimality of the code lengths.", "anchors": ["HuffmanCoders.cpp:HuffmanEncoder::encodeData", "HuffmanCoders.cpp:HuffmanEncoder::serializeShape", "HuffmanCoders.cpp:HuffmanEncoder::writeBlockHeader", "Compressor.cpp:Compressor::compress"]}
{"id": "C48", "title": "The program compress for all its options", "statement": "For every accepted combination of --mem, --starts, --bwt, --enc and --prepr the archive written by the program compress decompresses to the file (blocks as in C33 with --prepr, memory within stated bounds); with -e H and no --prepr the program always finishes; the block sizes computed in floating point are the documented fractions of the memory limit; --bwt does not change the archive; more memory than a bound, or a product that wraps, makes the program fail or lose the file.", "quantifier": "all option values, all files, all memory limits of 64 bits", "why_tests_cant": "The options and memory limits are unbounded combinations with rounding of doubles; blocks of gigabytes are never tested.", "anchors": ["compress.cpp:main", "compress.cpp:validateEncodingOption", "Compressor.cpp:Compressor::compress", "bwtransforms/BWTManager.cpp:BWTManager::initialize", "preprocessors/PairReplacer.cpp:PairReplacer::writeReplacedVersion", "preprocessors/Precompressor.cpp:Precompressor::precompress"]}
{"id": "C49", "title": "Pair replacement does not enlarge ordinary blocks", "statement": "One round of pair replacement either changes nothing or makes the block more than 1000 bytes shorter, up to one byte for each place with the same byte three times in a row; so with at most 1000 such places (one round), or at most 1000 places at which any string stands three times in a row (any number of rounds), every buffer of a third of the block suffices, postprocessing restores the block, and the archives of compress --prepr decompress to the file whenever the program finishes; blocks of three or four bytes excepted.", "quantifier": "all blocks below 2^31 bytes, all numbers of rounds up to 10^6, all options, all files", "why_tests_cant": "The sufficiency of the buffer depends on a counting argument over all pair frequencies; overflows appear only in specially built blocks of tens of thousands of bytes.", "anchors": ["preprocessors/PairReplacer.cpp:PairReplacer::decideReplacements", "preprocessors/PairReplacer.cpp:PairReplacer::findReplaceables", "preprocessors/PairReplacer.hpp:PairReplacer::analyseData0", "preprocessors/PairReplacer.cpp:PairReplacer::writeReplacedVersion", "preprocessors/Precompressor.cpp:Precompressor::precompress"]}
{"id": "C50", "title": "Pair replacement always finishes", "statement": "Analysing a block of at least three bytes and deciding which pairs to replace never violates an assertion of the pair replacer or the grammar, never leaves an array and never wraps a subtraction. With few repetitions (as in C49) the precompressor finishes for up to 200 rounds unless a round written in place ends with a byte written as two, and postprocessing then restores the block; so compress -e H with --prepr always writes an archive for such files, and decompress gives back the file.", "quantifier": "all blocks from 3 (5) bytes to 2^31 bytes, all numbers of rounds up to 200, all options, all files", "why_tests_cant": "The assertions relate the frequencies of all pairs, the number of unused bytes and the number of special symbols; whether a combination exists that violates one of them cannot be settled by trying blocks.", "anchors": ["preprocessors/PairReplacer.cpp:PairReplacer::decideReplacements", "preprocessors/PairReplacer.cpp:PairReplacer::findReplaceables", "preprocessors/PairReplacer.cpp:PairReplacer::constructReplacementTable", "preprocessors/Grammar.cpp:Grammar::expandAlphabet", "preprocessors/Precompressor.cpp:Precompressor::precompress", "compress.cpp:main"]}
{"id": "C51", "title": "Size of the archives the program writes", "statement": "compress -e H without --prepr writes at most 1.3 bytes per byte of the file plus 2697 bytes per 184999 bytes and megabyte of --mem (plus 2), whatever the file contains. With --prepr and few repetitions (as in C49) it writes at most 1.3 bytes per byte of the file plus 35458 bytes and 1792 bytes per round for each 739999 bytes and megabyte of --mem. The header of a preprocessed block takes at most 540 bytes and seven per rule, each round adds at most 256 rules, and the number of bytes returned is the number written.", "quantifier": "all files, all numbers of starting points, both suffix sorters, --mem up to 2902 (2415) megabytes, all numbers of rounds up to a million", "why_tests_cant": "The worst expansion over all files depends on code lengths, run lengths, how the block is divided into sections and the grammar; no set of files shows that no other file expands more.", "anchors": ["compress.cpp:main", "Compressor.cpp:Compressor::compress", "HuffmanCoders.cpp:HuffmanEncoder::encodeData", "preprocessors/Grammar.cpp:Grammar::writeGrammar", "PrecompressorBlock.cpp:PrecompressorBlock::writeBlockHeader"]}
{"id": "C52", "title": "The remaining probability models", "statement": "Whatever bits are coded and whenever a model is reset, UnbiasedPredictor, EvenIntervalPredictor, BiasedOnePredictor and AggressiveOnePredictor predict a probability between 1 and 4095, and so does every inversion, automaton (FSM with any number of states, FSM6, FSM8, FSM9) and history table made of such models; none reads outside its table, and coding with any of them restores the bits. FrequencePredictor does exactly as long as the number of bits and twice its constant do not exceed 4096. DMC does whenever its update returns, but there are parameters satisfying its static assertions and 29 bits for which it never returns. Resetting makes EvenIntervalPredictor and BiasedOnePredictor as new, but not AggressiveOnePredictor, FSM6, FSM9 and LimitedHistoryModel.", "quantifier": "all template parameters the static assertions admit, all sequences of updates, state changes and resets", "why_tests_cant": "The models are templates over other models and numbers; the states reached depend on unbounded bit sequences, and the endless recursion of DMC needs a particular sequence for particular parameters.", "anchors": ["probmodels/BitPredictors.hpp:EvenIntervalPredictor", "probmodels/BitPredictors.hpp:FrequencePredictor", "probmodels/BitPredictors.hpp:BiasedOnePredictor", "probmodels/BitPredictors.hpp:AggressiveOnePredictor", "probmodels/FSM.hpp:FSM", "probmodels/FSM.hpp:FSM6", "probmodels/FSM.hpp:FSM9", "probmodels/FSM.hpp:LimitedHistoryModel", "probmodels/DMC.hpp:DMC::update"]}
{"id": "C53", "title": "Which files the program compresses with its default coder", "statement": "compress with -e u, -e b or -e B (the default) and without --prepr writes an archive exactly for the files none of whose blocks has a transform with a section whose run lengths cannot be given codes (C23); decompress then gives back the file, and for all other files the behaviour is undefined. Every file of at most five bytes is compressed. The file \"bbbaaa\" is not, whatever --mem (up to 5804), --starts and --bwt are.", "quantifier": "all files, --mem up to 5804 megabytes, all --starts and --bwt the program accepts, all outcomes of the floating point comparisons in the choice of codes", "why_tests_cant": "A characterisation of all files for which the program fails cannot be observed from single files, and the floating point comparisons differ between machines.", "anchors": ["compress.cpp:main", "Compressor.cpp:Compressor::compress", "WaveletCoders.cpp:WaveletEncoder::encodeData", "WaveletTree.hpp:WaveletTree::bitsForIntegers"]}
{"id": "C54", "title": "Pairs beginning with the byte 0", "statement": "The pair replacer never chooses a pair whose first byte is 0, however often it occurs and whatever the grammar of the earlier rounds is, because only the first element of the array of used second bytes is initialised with true. A block in which the pair 0 2 occurs 1010 times is left alone, the same block with 1 instead of 0 is not.", "quantifier": "all grammars, frequency tables and lists of pairs", "why_tests_cant": "That no input leads to such a pair being replaced is a statement about all inputs.", "anchors": ["preprocessors/PairReplacer.cpp:PairReplacer::findReplaceables", "preprocessors/PairReplacer.cpp:PairReplacer::findReplaceablePairs"]}
{"id": "C55", "title": "Hu-Tucker code lengths", "statement": "Whenever calculateHuTuckerLengths returns for at least two different symbols, the lengths it returns fulfil Kraft's inequality with equality and belong to different symbols among those given. That every symbol gets a length is false: of three symbols the third gets one exactly if it is less frequent than the first. That the function is defined for all frequencies is false: for four symbols it follows a null pointer whenever the first is at most as frequent as the third.", "quantifier": "all lists of frequencies and different symbols; all frequencies of three and four symbols", "why_tests_cant": "Completeness has to hold for every list of frequencies of any length, and the failing inputs are a whole region of frequencies.", "anchors": ["Utils.cpp:calculateHuTuckerLengths", "Utils.cpp:findMinSum", "Utils.cpp:nextTerminal", "Utils.cpp:collectLengthsAndDestroyTree"]}
{"id": "C56", "title": "Packed integers in memory", "statement": "Every integer below 2^56 that is packed and stored at an address by writePackedInteger is read back unchanged by the memory version of readPackedInteger, whatever bytes lie behind it, and unpacks to itself. Input with eight continuation bytes makes the reader shift by 64. The end symbol that the reader returns for the bytes 128 and 0 is not written as these bytes and is read back as 0.", "quantifier": "all integers below 2^56, all contents of the memory behind them, all overlong inputs", "why_tests_cant": "The integers and what lies behind them in memory cannot be enumerated.", "anchors": ["Utils.cpp:readPackedInteger", "Utils.cpp:writePackedInteger", "Utils.cpp:packInteger"]}
{"id": "C57", "title": "Huffman trees built with the heap", "statement": "For every table of frequencies with at least two symbols and a sum below 2^64, createHuffmanShape returns a tree in which each symbol that occurs has exactly one code, no code is the beginning of another, and no prefix-free assignment of codes to these symbols needs fewer bits in total; the total equals that of the lengths of calculateHuffmanLengths. A single symbol gets a code of one bit. That the function is defined for every table is false: without a symbol it takes the minimum of an empty heap.", "quantifier": "all tables of frequencies, all prefix-free assignments", "why_tests_cant": "Optimality compares with all codes for all frequencies.", "anchors": ["WaveletTree.hpp:WaveletTree::createHuffmanShape", "WaveletTree.hpp:MinimumHeap", "WaveletTree.hpp:WaveletTree::collectCodes", "Utils.cpp:calculateHuffmanLengths"]}
{"id": "C58", "title": "Sizes of the bit vectors of a wavelet tree", "statement": "For every non-empty block whose wavelet tree is built, the number of bits that totalBits reports is the sum, over the maximal runs of the block, of the length of the code of the byte and of the length of the code of the run length; the root has one bit for each run, and no node has more bits than its parent has bits leading to it. rank counts the occurrences of a bit among the first i bits for every i, also behind the end of the vector.", "quantifier": "all blocks for which the tree is built, all outcomes of the floating point comparisons, all nodes and indices", "why_tests_cant": "The sum has to agree for every block and every choice of codes.", "anchors": ["WaveletTree.hpp:TreeNode::totalBits", "WaveletTree.hpp:TreeNode::rank", "WaveletTree.hpp:WaveletTree::pushRun", "WaveletCoders.cpp:WaveletEncoder::encodeData"]}

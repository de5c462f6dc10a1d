-Q theories Verif
theories/Base.v
theories/ModelUtils.v
theories/ModelRuns.v
theories/SpecRuns.v
theories/ProofUtils1.v
theories/ProofUtils2.v
theories/ProofUtils3.v
theories/ProofRuns.v
theories/PropUtils.v
theories/ModelBitCoder.v
theories/ProofBitCoder.v
theories/ModelProb.v
theories/SpecProb.v
theories/ProofProb.v
theories/PropCoder.v
theories/ModelStreams.v
theories/SpecStreams.v
theories/ProofStreams1.v
theories/ProofStreams2.v
theories/PropStreams.v
theories/ModelHeaders.v
theories/SpecHeaders.v
theories/ProofHeaders.v
theories/PropHeaders.v
theories/Arrays.v
theories/ModelHuffman.v
theories/SpecHuffman.v
theories/ProofHuffman1.v
theories/ProofHuffman2.v
theories/ProofHuffman3.v
theories/ProofHuffman4.v
theories/ProofHuffman5.v
theories/ProofHuffman6.v
theories/ProofHuffman7.v
theories/PropHuffman.v
theories/ModelHuffmanCoder.v
theories/ProofHuffCoder1.v
theories/ProofHuffCoder2.v
theories/ProofHuffCoder3.v
theories/ProofHuffCoder4.v
theories/PropHuffmanCoder.v
theories/TArray.v
theories/SpecBWT.v
theories/ModelBWT.v
theories/ProofBWT1.v
theories/ProofBWT2.v
theories/ProofBWT3.v
theories/ProofBWT4.v
theories/ProofBWT5.v
theories/ProofBWT6.v
theories/ProofBWT7.v
theories/ProofBWT8.v
theories/PropBWT.v
theories/ModelFreq.v
theories/ModelSort.v
theories/ModelGrammar.v
theories/ModelPairs.v
theories/ProofSort.v
theories/SpecFreq.v
theories/ProofFreq.v
theories/ProofFreq2.v
theories/PropFreq.v
theories/ProofGrammar1.v
theories/SpecGrammar.v
theories/ProofGrammar2.v
theories/ProofGrammar3.v
theories/ProofGrammar4.v
theories/PropGrammar.v
theories/SpecPairs.v
theories/ProofPairs1.v
theories/ProofPairs2.v
theories/ProofPairs3.v
theories/ProofPairs4.v
theories/ProofPairs5.v
theories/ProofPairs6.v
theories/ProofPairs7.v
theories/ProofPairs8.v
theories/ProofPairs9.v
theories/SpecTriple.v
theories/ProofTriple1.v
theories/ProofTriple2.v
theories/ProofTriple3.v
theories/ProofTriple4.v
theories/ProofTriple5.v
theories/ProofTriple6.v
theories/ProofTriple7.v
theories/PropTriple.v
theories/SpecTotal.v
theories/ProofTotal1.v
theories/ProofTotal2.v
theories/ProofTotal3.v
theories/ProofTotal4.v
theories/ProofTotal5.v
theories/ProofTotal6.v
theories/PropTotal.v
theories/ProofSize3.v
theories/ProofSize4.v
theories/PropSize2.v
theories/PropPairs.v
theories/ModelFile.v
theories/SpecFile.v
theories/ProofFile.v
theories/PropFile.v
theories/ModelHeap.v
theories/SpecHeap.v
theories/ProofHeap.v
theories/PropHeap.v
theories/ModelWavelet.v
theories/SpecWavelet.v
theories/SpecChoice.v
theories/SpecStops.v
theories/ProofWav1.v
theories/ProofWav2.v
theories/ProofWav3.v
theories/ProofWav4.v
theories/ProofWav5.v
theories/ProofWav6.v
theories/ProofWav7.v
theories/ProofWav8.v
theories/ProofWav9.v
theories/ProofWav10.v
theories/ProofWav11.v
theories/ProofWav12.v
theories/ProofWav13.v
theories/ProofWav14.v
theories/ProofWav15.v
theories/ProofWav16.v
theories/ProofWav17.v
theories/ProofWav18.v
theories/ProofWav19.v
theories/ProofWav20.v
theories/ProofWav21.v
theories/ProofWav22.v
theories/ProofWav23.v
theories/ProofWav24.v
theories/ProofWav25.v
theories/PropWavelet.v
theories/PropWaveletFile.v
theories/ProofGrowth.v
theories/PropGrowth.v
theories/ModelPrograms.v
theories/ProofPrograms.v
theories/PropPrograms.v
theories/ModelSais.v
theories/ModelSaisFile.v
theories/ProofSais1.v
theories/ProofSais2.v
theories/ProofSais3.v
theories/ProofSais4.v
theories/ProofSais5.v
theories/ProofSais6.v
theories/ProofSais7.v
theories/ProofSais8.v
theories/ProofSais9.v
theories/ProofSais10.v
theories/ProofSais11.v
theories/ProofSais12.v
theories/ProofSais13.v
theories/ProofSais14.v
theories/ProofSais15.v
theories/ProofSais16.v
theories/ProofSais17.v
theories/ProofSais18.v
theories/ProofSais19.v
theories/ProofSais20.v
theories/PropSais.v
theories/ProofSize1.v
theories/ProofSize2.v
theories/PropSize.v
theories/ModelMain.v
theories/SpecMain.v
theories/ProofMain1.v
theories/ProofMain2.v
theories/ProofMain3.v
theories/ProofMain4.v
theories/PropMain.v
theories/ModelProb2.v
theories/SpecProb2.v
theories/ProofProb2.v
theories/ProofProb3.v
theories/PropProb2.v
theories/ProofMain5.v
theories/ProofZero.v
theories/PropDefault.v
theories/ModelHuTucker.v
theories/SpecHuTucker.v
theories/ProofHuTucker.v
theories/PropHuTucker.v
theories/ModelPackMem.v
theories/ProofPackMem.v
theories/PropPackMem.v
theories/ModelShape.v
theories/ProofShape.v
theories/PropShape.v
theories/ModelTreeSize.v
theories/ProofTreeSize.v
theories/PropTreeSize.v

-Q theories Verif
theories/Base.v
theories/BaseLemmas.v
theories/Store.v
theories/StoreSpec.v
theories/StoreProofs.v
theories/StoreProofs2.v
theories/P_StoreLemmas.v
theories/P_Store.v
theories/Compression.v
theories/CompressionProofs.v
theories/P_CompressionLemmas.v
theories/P_Compression.v
theories/Postings.v
theories/PostingsSpec.v
theories/PostingsDrive.v
theories/PostingsProofs.v
theories/PostingsProofs2.v
theories/P_PostingsLemmas.v
theories/P_Postings.v
theories/Heap.v
theories/HeapProofs.v
theories/Merger.v
theories/MergerSpec.v
theories/MergerProofs.v
theories/MergerAnySpec.v
theories/MergerProofs2.v
theories/MergerAny.v
theories/MergerProofs3.v
theories/MergerProofs4.v
theories/P_MergerLemmas.v
theories/P_Merger.v
theories/GoMap.v
theories/Index.v
theories/IndexSpec.v
theories/IndexProofs.v
theories/IndexProofs2.v
theories/P_IndexLemmas.v
theories/P_Index.v
theories/Text.v
theories/Analysis.v
theories/AnalysisSpec.v
theories/TextProofs.v
theories/TextProofs2.v
theories/AnalysisProofs.v
theories/AnalysisProofs2.v
theories/P_AnalysisLemmas.v
theories/P_Analysis.v
theories/Float64.v
theories/Metric.v
theories/MetricSpec.v
theories/MetricProofs.v
theories/FloatProofs.v
theories/MetricFloat.v
theories/MetricFloat2.v
theories/MetricScore.v
theories/MetricWide.v
theories/P_Metric.v
theories/TopK.v
theories/TopKSpec.v
theories/TopKProofs.v
theories/P_TopK.v
theories/Suggest.v
theories/SuggestSpec.v
theories/SuggestProofs.v
theories/SuggestGen.v
theories/SearchAny.v
theories/SuggestProofs2.v
theories/P_SuggestLemmas.v
theories/SuggestAnySpec.v
theories/SuggestAny.v
theories/P_Suggest.v
theories/P_Repeated.v
theories/AutocompleteAnySpec.v
theories/AutocompleteAny.v
theories/P_RepeatedDict.v
theories/Autocomplete.v
theories/AutocompleteSpec.v
theories/AutocompleteProofs.v
theories/P_Autocomplete.v
theories/Service.v
theories/ServiceSpec.v
theories/ServiceProofs.v
theories/P_Service.v
theories/Http.v
theories/HttpSpec.v
theories/P_Http.v
theories/CountTrie.v
theories/CountTrieSpec.v
theories/CountTrieProofs.v
theories/P_CountTrie.v
theories/NGram.v
theories/NGramSpec.v
theories/NGramProofs.v
theories/NGramProofs2.v
theories/NGramProofs3.v
theories/NGramProofs4.v
theories/P_NGram.v
theories/Mph.v
theories/MphSpec.v
theories/MphProofs.v
theories/P_Mph.v
theories/P_Mph2.v
theories/Decimal.v
theories/NGramStore.v
theories/NGramStoreProofs.v
theories/P_NGramStore.v
theories/LMAlias.v
theories/P_LMAlias.v
theories/Scanner.v
theories/ScannerSpec.v
theories/ScannerProofs.v
theories/ScannerProofs2.v
theories/P_Scanner.v
theories/GoogleNGram.v
theories/GoogleProofs.v
theories/P_Google.v
theories/TrainedSpec.v
theories/TrainedProofs.v
theories/P_Trained.v
theories/LMText.v
theories/Spell.v
theories/SpellSpec.v
theories/SpellProofs.v
theories/P_Spell.v
theories/LMPipeline.v
theories/LMPipelineSpec.v
theories/P_Pipeline.v
theories/NGramIndex.v
theories/NGramIndexSpec.v
theories/NGramIndexProofs.v
theories/NGramIndexProofs2.v
theories/P_NGramIndex.v
theories/NGramIndexAnySpec.v
theories/NGramIndexAny.v
theories/CdbDict.v
theories/CdbDictSpec.v
theories/P_Cdb.v
theories/VGram.v
theories/VGramSpec.v
theories/VGramProofs.v
theories/VGramProofs2.v
theories/VGramProofs3.v
theories/VGramProofs4.v
theories/P_VGram.v
theories/Snowball.v
theories/StemRu.v
theories/StemEn.v
theories/StemSpec.v
theories/StemProofs.v
theories/StemRuProofs.v
theories/StemFwdProofs.v
theories/StemRuProofs2.v
theories/StemFilter.v
theories/StemEnSpec.v
theories/StemChars.v
theories/StemEnProofs.v
theories/StemEnProofs2.v
theories/StemEnProofs3.v
theories/P_StemRu.v
theories/P_StemEnLemmas.v
theories/P_StemEn.v
theories/SnowballSearch.v
theories/SnowballSearchProofs.v
theories/P_StemFilter.v
theories/Lifetime.v
theories/LifetimeProofs.v
theories/LifetimeProofs2.v
theories/LifetimeProofs3.v
theories/P_Lifetime.v
theories/Json.v
theories/JsonSpec.v
theories/JsonProofs.v
theories/P_Json.v
theories/Handlers.v
theories/P_Handlers.v
theories/P_Handlers2.v
theories/Reindex.v
theories/P_Reindex.v
theories/Routes.v
theories/P_Routes.v
theories/Paths.v
theories/PathsSpec.v
theories/P_Paths.v
theories/ServerLife.v
theories/P_ServerLife.v
theories/SpellBuild.v
theories/SpellBuildSpec.v
theories/P_SpellBuild.v
theories/Indexer.v
theories/IndexerSpec.v
theories/P_Indexer.v
theories/Eval.v
theories/EvalSpec.v
theories/P_Eval.v
theories/Pool.v
theories/PoolProofs.v
theories/PoolProofs2.v
theories/PoolProofs3.v
theories/P_Pool.v
theories/Config.v
theories/ConfigSpec.v
theories/ConfigProofs.v
theories/ConfigProofs2.v
theories/ConfigProofs3.v
theories/P_Config.v
theories/P_Errors.v
theories/Deploy.v
theories/DeploySpec.v
theories/P_Deploy.v
theories/P_DeployAny.v
theories/P_Relations.v
theories/IndexerKill.v
theories/KillProofs1.v
theories/KillProofs2.v
theories/P_Kill.v
theories/LMDeploy.v
theories/LMDeploySpec.v
theories/P_LMDeploy.v
theories/P_AnyQuery.v
theories/P_AnyQueryServer.v
theories/AnsweredSpec.v
theories/P_Answered.v
theories/MetricMono.v
theories/SimilaritySpec.v
theories/P_Similarity.v
theories/WriteFaults.v
theories/WriteFaultsProofs.v
theories/WriteFaultsProofs2.v
theories/WriteFaultsProofs3.v
theories/WriteFaultsProofs4.v
theories/FaultyIndexer.v
theories/FaultyProofs.v
theories/P_WriteFaults.v
theories/P_CutModel.v
theories/P_CutFiles.v
theories/P_SimilarityAny.v
theories/P_FullAnswer.v
theories/P_FullAnswerServer.v
theories/SpellAny.v
theories/P_SpellAny.v
theories/P_SpellBuildAny.v
theories/P_LookupAny.v
theories/P_LookupServer.v

-Q theories Verif
theories/AmongProofs.v
theories/AmongSpec.v
theories/Api.v
theories/ApiExec.v
theories/ApiExecProofs.v
theories/ApiProofs.v
theories/ApiRunProofs.v
theories/ApiRunSpec.v
theories/ApiSpec.v
theories/Base64.v
theories/Base64Facts.v
theories/Base64Proofs.v
theories/Base64Spec.v
theories/BatchProofs.v
theories/BatchSpec.v
theories/Built.v
theories/BytesProofs.v
theories/BytesSpec.v
theories/CacheDoc.v
theories/ClearProofs.v
theories/ClearSpec.v
theories/Commit.v
theories/CommitProofs.v
theories/CommitSpec.v
theories/ConfigExamples.v
theories/ConfigProofs.v
theories/ConfigSpec.v
theories/Configer.v
theories/CrashProofs.v
theories/CrashRunProofs.v
theories/CrashRunSpec.v
theories/Csv.v
theories/CsvProofs.v
theories/CsvSpec.v
theories/DbConfig.v
theories/Describe.v
theories/DescribeProofs.v
theories/DescribeSpec.v
theories/DirDB.v
theories/DirDBProofs.v
theories/DirDBSpec.v
theories/DiscoverProofs.v
theories/Ecosystems.v
theories/EndProofs.v
theories/EndSpec.v
theories/ErrGroup.v
theories/ErrGroupProofs.v
theories/FitProofs.v
theories/FitSpec.v
theories/Flags.v
theories/FlagsProofs.v
theories/FlagsSpec.v
theories/FormatProofs.v
theories/FormatSpec.v
theories/FullNotedProofs.v
theories/FullParseProofs.v
theories/FullRun.v
theories/FullRunProofs.v
theories/FullRunSpec.v
theories/FullTalkProofs.v
theories/FullWordsProofs.v
theories/GemLock.v
theories/GemProofs.v
theories/GemSpec.v
theories/GoLock.v
theories/GoMap.v
theories/GoProofs.v
theories/GoSort.v
theories/GoSortFacts.v
theories/GoSpec.v
theories/GoStr.v
theories/GoStrFacts.v
theories/GrowProofs.v
theories/GrowSpec.v
theories/IgnSetProofs.v
theories/IgnSetSpec.v
theories/Json.v
theories/JsonChars.v
theories/JsonDec.v
theories/JsonFacts.v
theories/JsonGrammar.v
theories/JsonKeys.v
theories/JsonRound.v
theories/JsonSpec.v
theories/JsonUtf8.v
theories/JsonWrite.v
theories/KeyLocks.v
theories/KeyLocksProofs.v
theories/LineLocks.v
theories/LineProofs.v
theories/LineSpec.v
theories/ListDocProofs.v
theories/ListDocSpec.v
theories/ListLocks.v
theories/ListLocksProofs.v
theories/ListProofs.v
theories/ListSpec.v
theories/LockIO.v
theories/LockJson.v
theories/LockSpec.v
theories/Lockfile.v
theories/LockfileProofs.v
theories/LockfileSpec.v
theories/Main.v
theories/MainExamples.v
theories/MainProofs.v
theories/MainSpec.v
theories/MainTrace.v
theories/MavenLock.v
theories/MavenProofs.v
theories/MavenSpec.v
theories/MemDB.v
theories/MemDBProofs.v
theories/MemDBSpec.v
theories/NpmLock.v
theories/NpmProofs.v
theories/NpmSpec.v
theories/NullProofs.v
theories/NullSpec.v
theories/Nulls.v
theories/NumProofs.v
theories/NumSpec.v
theories/OfflineProofs.v
theories/OfflineSpec.v
theories/OrderProofs.v
theories/OrderSpec.v
theories/Osv.v
theories/OsvExamples.v
theories/OsvJson.v
theories/OsvJsonProofs.v
theories/OsvJsonRound.v
theories/OsvJsonSpec.v
theories/OsvProofs.v
theories/OsvSpec.v
theories/ParserProofs.v
theories/ParserSpec.v
theories/Parsers.v
theories/Path.v
theories/PathFacts.v
theories/PathsProofs.v
theories/PkgMap.v
theories/PkgMapSpec.v
theories/PnpmLock.v
theories/PnpmProofs.v
theories/PnpmSpec.v
theories/PropsAmong.v
theories/PropsApi.v
theories/PropsApiRun.v
theories/PropsBatch.v
theories/PropsBytes.v
theories/PropsClear.v
theories/PropsConfig.v
theories/PropsCrashRun.v
theories/PropsEnd.v
theories/PropsFit.v
theories/PropsFlags.v
theories/PropsFullRun.v
theories/PropsGem.v
theories/PropsGo.v
theories/PropsGrow.v
theories/PropsIgnSet.v
theories/PropsJson.v
theories/PropsLines.v
theories/PropsListLocks.v
theories/PropsLockfile.v
theories/PropsMain.v
theories/PropsMaven.v
theories/PropsNpm.v
theories/PropsNull.v
theories/PropsOffline.v
theories/PropsOrder.v
theories/PropsOsv.v
theories/PropsOsvJson.v
theories/PropsParsers.v
theories/PropsPaths.v
theories/PropsPnpm.v
theories/PropsQuiet.v
theories/PropsRegexCache.v
theories/PropsReignore.v
theories/PropsReport.v
theories/PropsReportDoc.v
theories/PropsRequirements.v
theories/PropsRetold.v
theories/PropsRunOrder.v
theories/PropsSpell.v
theories/PropsStory.v
theories/PropsTouch.v
theories/PropsUnprinted.v
theories/PropsVeil.v
theories/PropsWarnings.v
theories/PropsWindows.v
theories/PropsYarn.v
theories/PropsZip.v
theories/QuietProofs.v
theories/QuietRunProofs.v
theories/QuietSpec.v
theories/Regex.v
theories/RegexCache.v
theories/RegexCacheProofs.v
theories/RegexFacts.v
theories/RegexIn.v
theories/ReignoreProofs.v
theories/ReignoreRunProofs.v
theories/ReignoreSpec.v
theories/Report.v
theories/ReportDocProofs.v
theories/ReportDocRun.v
theories/ReportDocSpec.v
theories/ReportProofs.v
theories/ReportSpec.v
theories/ReqLines.v
theories/Requirements.v
theories/RequirementsProofs.v
theories/RequirementsSpec.v
theories/RetoldProofs.v
theories/RetoldRunProofs.v
theories/RetoldSpec.v
theories/RunEnd.v
theories/RunFacts.v
theories/RunOrderParse.v
theories/RunOrderProofs.v
theories/RunOrderSpec.v
theories/RunProofs.v
theories/Scan.v
theories/ScanProofs.v
theories/SemNum.v
theories/SpellProofs.v
theories/SpellSpec.v
theories/StoryFacts.v
theories/StoryProofs.v
theories/StorySpec.v
theories/Surface.v
theories/TouchProofs.v
theories/TouchSpec.v
theories/Types.v
theories/UnprintedProofs.v
theories/UnprintedSpec.v
theories/UpdateProofs.v
theories/Utf8.v
theories/VeilProofs.v
theories/VeilSpec.v
theories/Warnings.v
theories/WarningsProofs.v
theories/WarningsSpec.v
theories/Windows.v
theories/WindowsProofs.v
theories/WindowsSpec.v
theories/YarnLock.v
theories/YarnProofs.v
theories/YarnSpec.v
theories/ZipDB.v
theories/ZipProofs.v
theories/ZipSpec.v

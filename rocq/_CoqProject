-Q theories Verif
theories/GoStr.v
theories/GoStrFacts.v
theories/Json.v
theories/JsonFacts.v
theories/Gabs.v
theories/Container.v
theories/GabsFacts.v
theories/Spec_Merge.v
theories/MergeFacts.v
theories/MergeLaws.v
theories/Spec_Loc.v
theories/LocFacts.v
theories/SetFacts.v
theories/Spec_Sort.v
theories/ContFacts.v
theories/Spec_Clone.v
theories/CloneFacts.v
theories/MergeApi.v
theories/Yaml.v
theories/Spec_Yaml.v
theories/YamlFacts.v
theories/P_Container.v
theories/Url.v
theories/Pointer.v
theories/Slices.v
theories/Spec_Frag.v
theories/FragFacts.v
theories/Spec_Ptr.v
theories/PtrFacts.v
theories/Spec_Slices.v
theories/SliceFacts.v
theories/P_Pointer.v
theories/Resolver.v
theories/Spec_Resolve.v
theories/ResolverFacts.v
theories/ResolverTerm.v
theories/ResolverFrame.v
theories/ResolverLocal.v
theories/ResolverExpand.v
theories/ResolverNames.v
theories/ScanFn.v
theories/ScanFnFacts.v
theories/P_Resolver.v
theories/Regex.v
theories/Route.v
theories/Spec_Route.v
theories/RegexFacts.v
theories/RouteFacts.v
theories/RouteCache.v
theories/RouteCacheFacts.v
theories/RouteMethod.v
theories/P_Route.v
theories/Root.v
theories/Spec_Root.v
theories/RootFacts.v
theories/PathsFacts.v
theories/P_Root.v
theories/Tag.v
theories/Spec_Tag.v
theories/TagFacts.v
theories/TagText.v
theories/Spec_TagQuote.v
theories/TagQuote.v
theories/TagLit.v
theories/P_Tag.v
theories/Types.v
theories/Spec_Types.v
theories/TypesFacts.v
theories/WalkFacts.v
theories/CollectFacts.v
theories/CollectApi.v
theories/DenoteFacts.v
theories/SimpleChain.v
theories/Spec_Schema.v
theories/FieldFacts.v
theories/FieldOutcome.v
theories/SchemaFacts.v
theories/SchemaOutcome.v
theories/SchemaRefs.v
theories/SchemaShape.v
theories/P_Types.v
theories/Pkgs.v
theories/Spec_Pkgs.v
theories/PkgFacts.v
theories/Cmds.v
theories/Spec_Cmds.v
theories/CmdFacts.v
theories/Path.v
theories/Specs.v
theories/Spec_Specs.v
theories/SpecFacts.v
theories/P_Scan.v
theories/JsonText.v
theories/JsonTextFacts.v
theories/JsonReadFacts.v
theories/Spec_Go.v
theories/JsonFormatFacts.v
theories/JsonPretty.v
theories/JsonChars.v
theories/Spec_Format.v
theories/FormatFacts.v
theories/P_Format.v
theories/Spec_Path.v
theories/PathFacts.v
theories/Config.v
theories/Spec_Config.v
theories/ConfigFacts.v
theories/Cli.v
theories/CliFacts.v
theories/ConfigApi.v
theories/P_Config.v
theories/P_Cli.v
theories/SchemaJson.v
theories/Scan.v
theories/Spec_Scan.v
theories/ScanFacts.v
theories/SchemaJsonFacts.v
theories/ScanTypes.v
theories/ScanInv.v
theories/ScanRefs.v
theories/ScanEnd.v
theories/SchemaJsonApi.v
theories/P_ScanAll.v
theories/SpecUtil.v
theories/Spec_SpecUtil.v
theories/SpecUtilFacts.v
theories/JsonGrammar.v
theories/AnyJson.v
theories/AnyJsonFacts.v
theories/AnyJsonApi.v
theories/P_SpecUtil.v
theories/HeapCont.v
theories/HeapMmap.v
theories/Spec_Heap.v
theories/HeapFacts.v
theories/HeapSet.v
theories/HeapSearch.v
theories/HeapMerge.v
theories/HeapApi.v
theories/HeapMmapFacts.v
theories/P_Heap.v
theories/Spec_Kept.v
theories/ScanKept.v
theories/ScanKept2.v
theories/ScanKept3.v
theories/ScanKept4.v
theories/P_Kept.v
theories/ResolverExpandX.v
theories/ResolverAt.v
theories/P_At.v
theories/ScanStages.v
theories/ScanAdds.v
theories/ScanStruct.v
theories/P_Adds.v
theories/Builders.v
theories/Spec_Build.v
theories/BuildFacts.v
theories/BuildRun.v
theories/SpecCtors.v
theories/P_Build.v
theories/Shape.v
theories/Spec_Shape.v
theories/ShapeFacts.v
theories/ShapeApi.v
theories/P_Shape.v
theories/ConfigScan.v
theories/ConfigScanFacts.v
theories/Spec_ConfigScan.v
theories/ConfigScanApi.v
theories/ConfigScanRun.v
theories/P_ConfigScan.v
theories/ScanDepth.v
theories/Spec_Ends.v
theories/ScanEnds.v
theories/P_Ends.v
theories/SpecValues.v
theories/ValuesFacts.v
theories/P_Values.v
theories/Spec_ResolveOk.v
theories/ResolverOk.v
theories/P_ResolveOk.v
theories/Spec_ScanOk.v
theories/SchemaNeat.v
theories/ScanOk.v
theories/P_ScanOk.v
theories/Spec_Same.v
theories/ScanSame.v
theories/ScanSame2.v
theories/ScanSame3.v
theories/ScanSame4.v
theories/P_Same.v
theories/Spec_Reach.v
theories/ResolverReach.v
theories/ResolverSame.v
theories/P_Reach.v
theories/Spec_SameAll.v
theories/ScanSame5.v
theories/P_SameAll.v
theories/Spec_Reproduce.v
theories/P_Reproduce.v
theories/Spec_Origin.v
theories/ScanOrigin.v
theories/P_Origin.v
theories/Spec_Unseen.v
theories/ScanUnseen.v
theories/P_Unseen.v
theories/Spec_Url.v
theories/UrlText.v
theories/UrlGrammar.v
theories/P_Url.v
theories/Spec_Unref.v
theories/UnrefFacts.v
theories/P_Unref.v
theories/UnneededFacts.v
theories/P_Unneeded.v
theories/Spec_Again.v
theories/ShapeAgain.v
theories/P_Again.v
theories/Spec_Tail.v
theories/TailFacts.v
theories/P_Tail.v
theories/PkgErr.v
theories/P_Err.v

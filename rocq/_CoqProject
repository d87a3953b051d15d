-Q theories Verif
theories/Base.v
theories/Heap.v
theories/Edit.v
theories/Traverse.v
theories/Spec.v
theories/HeapFacts.v
theories/SpecFacts.v
theories/NavFacts.v
theories/NavFacts2.v
theories/EditFacts.v
theories/EditFacts2.v
theories/EditFacts3.v
theories/EditFacts4.v
theories/EditFacts5.v
theories/IterSpec.v
theories/RoseFacts.v
theories/AdjFacts.v
theories/IterFacts.v
theories/TravFacts.v
theories/TravFacts2.v
theories/TravFacts3.v
theories/TravFacts4.v
theories/Examples.v
theories/TravFacts5.v
theories/PropNav.v
theories/PropTraverse.v

theories/System.v
theories/SysSpec.v
theories/CardFacts.v
theories/TdFacts.v
theories/TdFacts2.v
theories/SysFacts.v
theories/SysFacts2.v
theories/SysFacts3.v
theories/SysFacts4.v
theories/SysFacts5.v
theories/SysFacts6.v
theories/SysFacts7.v
theories/SysFacts8.v
theories/SysFacts9.v
theories/SysFacts10.v
theories/SysFacts11.v
theories/SysFacts12.v
theories/SysFacts13.v
theories/SysFacts14.v
theories/SysFacts15.v
theories/GraftFacts.v
theories/Misled.v
theories/Misled2.v
theories/Misled3.v
theories/Misled4.v
theories/Misled5.v
theories/MisledSpec.v
theories/ApiSpec.v
theories/ApiFacts.v
theories/ApiFacts2.v
theories/ApiFacts3.v
theories/ApiFacts4.v
theories/ApiFacts5.v
theories/ApiFacts6.v
theories/ApiFacts7.v
theories/ApiFacts8.v
theories/ApiFacts9.v
theories/ApiFacts10.v
theories/Demo.v
theories/PropEdit.v
theories/Misled6.v
theories/Misled7.v
theories/Misled8.v
theories/PropMisled.v
theories/PropLock.v
theories/PropLife.v
theories/Serial.v
theories/SerialSpec.v
theories/EqFacts.v
theories/EqFacts2.v
theories/SerFacts.v
theories/BracketFacts.v
theories/BuildFacts.v
theories/BuildFacts2.v
theories/BuildFacts3.v
theories/BuildFacts4.v
theories/BuildFacts5.v
theories/BuildFacts6.v
theories/BuildFacts7.v
theories/BuildFacts8.v
theories/BuildFacts9.v
theories/Serial2.v
theories/Serial2Spec.v
theories/BuildFacts10.v
theories/BuildFacts11.v
theories/BuildFacts12.v
theories/BuildFacts13.v
theories/BuildFacts14.v
theories/BuildFacts15.v
theories/BuildFacts16.v
theories/PropSerial.v
theories/PropSerial2.v
theories/Debug.v
theories/DebugSpec.v
theories/DebugFacts.v
theories/PropDebug.v
theories/Pretty.v
theories/PrettySpec.v
theories/PrettyFacts.v
theories/PrettyFacts2.v
theories/PrettySink.v
theories/PrettySinkSpec.v
theories/PrettySinkFacts.v
theories/PropPretty.v
theories/GenSpec.v
theories/GenFacts.v
theories/GenFacts2.v
theories/GenFacts3.v
theories/GenFacts4.v
theories/GenFacts5.v
theories/GenFacts6.v
theories/GenFacts7.v
theories/PropAny.v
theories/HIter.v
theories/HIterSpec.v
theories/HIterFacts.v
theories/HIterFacts2.v
theories/HIterFacts3.v
theories/PropIter.v
theories/Depth.v
theories/DepthFacts.v
theories/DepthFacts2.v
theories/DepthFacts3.v
theories/DepthFacts4.v
theories/DepthFacts5.v
theories/DepthFacts6.v
theories/DepthFacts7.v
theories/DepthFacts8.v
theories/DepthFacts9.v
theories/PropDepth.v
theories/MoveSpec.v
theories/MoveFacts.v
theories/GraftSpec.v
theories/GraftFacts2.v
theories/Api.v
theories/QuerySpec.v
theories/QueryFacts.v
theories/PropMove.v
theories/PropGraft.v
theories/TearFacts.v
theories/Garble.v
theories/GraftFacts3.v
theories/GraftFacts4.v
theories/GraftFacts5.v
theories/CountFacts.v
theories/PropCount.v
theories/BareSpec.v
theories/BareFacts.v
theories/PropBare.v
theories/SafeSpec.v
theories/SafeExact.v
theories/AsideSpec.v
theories/EveryFacts.v
theories/FlowSpec.v
theories/FlowFacts.v
theories/PropSafe.v
theories/PropQuery.v
theories/FrameSpec.v
theories/FrameFacts.v
theories/FrameFacts2.v
theories/PropFrame.v
theories/LooseSpec.v
theories/LooseFacts.v
theories/LooseFacts2.v
theories/TravFacts6.v
theories/PropStable.v
theories/HIter2.v
theories/OwnSpec.v
theories/OwnFacts.v
theories/OwnFacts2.v
theories/CloneSpec.v
theories/CloneFacts.v
theories/BuilderSpec.v
theories/BuilderFacts.v
theories/BuilderFacts2.v
theories/PropBuilder.v
theories/UndoSpec.v
theories/UndoFacts.v
theories/UndoFacts2.v
theories/PropUndo.v
theories/DropSpec.v
theories/DropFacts.v
theories/PropDrop.v
theories/EqFacts3.v
theories/PropEq.v
theories/FusedSpec.v
theories/PropFused.v
theories/DataSpec.v
theories/DataFacts.v
theories/PropData.v
theories/LocalSpec.v
theories/LocalFacts.v
theories/LocalFacts2.v
theories/PropLocal.v
theories/PropOwn.v
theories/HIter2Spec.v
theories/HIter2Facts.v
theories/HIter2Facts2.v
theories/HIter2Facts3.v
theories/PropIter2.v
theories/DocSpec.v
theories/DocFacts.v
theories/DocFacts2.v
theories/DocFacts3.v
theories/DocFacts4.v
theories/DocFacts5.v
theories/DocFacts6.v
theories/PropDoc.v
theories/PropDoc2.v

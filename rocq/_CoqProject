-Q theories Verif
theories/Base.v
theories/Ast1.v
theories/Parse1.v
theories/ModelTests1.v
theories/Ast2.v
theories/ModelTests2.v
theories/Ast3.v
theories/ModelTests3.v
theories/Spec1.v
theories/Tok.v
theories/Pure1.v
theories/Refine1.v
theories/Gram1.v
theories/Ind.v
theories/Lines.v
theories/SpecDoc1.v
theories/SpecDoc2.v
theories/SpecDoc3.v
theories/Facts1.v
theories/Valid1.v
theories/Valid2.v
theories/Valid3.v
theories/Rules.v
theories/Eqb.v
theories/Spec2.v
theories/Conv2.v
theories/Fail2.v
theories/Facts2.v
theories/Good2.v
theories/Env2.v
theories/SpecCanon1.v
theories/Canon1.v
theories/SpecBack2.v
theories/Back2.v
theories/SpecPar3.v
theories/Par3.v
theories/Order.v
theories/SpecMaths3.v
theories/Maths3.v
theories/MathsFwd.v
theories/MathsBwd.v
theories/MathsRun.v
theories/Mono.v
theories/MathsRec.v
theories/Dollars.v
theories/SpecClass3.v
theories/Class3.v
theories/Options3.v
theories/Doc3.v
theories/SpecBack3.v
theories/Back3.v
theories/SpecComments.v
theories/Comments1.v
theories/Properties1.v
theories/Properties2.v
theories/Properties3.v
theories/Properties4.v
theories/Properties5.v
theories/Properties6.v
theories/SpecBracketLine.v
theories/BracketLine.v
theories/Properties7.v
theories/Properties8.v
theories/Properties9.v
theories/Cost1.v
theories/Properties10.v
theories/SpecFail1.v
theories/Fail1.v
theories/Properties11.v
theories/SpecFault.v
theories/Fault.v
theories/Api.v
theories/Eqb23.v
theories/Properties12.v
theories/SpecFlat.v
theories/Flat.v
theories/Properties13.v
theories/SpecReads.v
theories/Reads.v
theories/Properties14.v
theories/SpecRead3.v
theories/Read3.v
theories/Properties15.v
theories/Again2.v
theories/Properties16.v
theories/SpecConcat.v
theories/Concat1.v
theories/Concat2.v
theories/Properties17.v
theories/SpecRename.v
theories/Rename1.v
theories/Rename2.v
theories/Rename3.v
theories/Properties18.v
theories/Message.v
theories/Properties19.v
theories/SpecNested.v
theories/Nested1.v
theories/Properties20.v
theories/Cost2.v
theories/Cost3.v
theories/Cost3b.v
theories/Properties21.v
theories/Keep2.v
theories/Keep3.v
theories/SpecWrap.v
theories/ReadsW.v
theories/KeepW.v
theories/Properties22.v
theories/SpecBuild.v
theories/Rebuild.v
theories/Properties23.v
theories/Properties24.v
theories/SpecChain.v
theories/Chain.v
theories/Properties25.v
theories/SpecBelow3.v
theories/Below3.v
theories/Below3d.v
theories/Properties26.v
theories/SpecDepth.v
theories/Depth0.v
theories/Depth1.v
theories/Depth2.v
theories/Depth3.v
theories/Depth3b.v
theories/Properties27.v
theories/SpecSize.v
theories/Size.v
theories/Size3.v
theories/Properties28.v
theories/SpecUnnum.v
theories/Unnum.v
theories/Unnum1.v
theories/Unnum3.v
theories/Unnum4.v
theories/Properties29.v
theories/SpecAgain.v
theories/DownUp.v
theories/DownUp2.v
theories/Properties30.v
theories/Stateful.v
theories/SpecHistory.v
theories/History.v
theories/Properties31.v
theories/SpecAgain3.v
theories/Again3.v
theories/Again3b.v
theories/Again3c.v
theories/Again3d.v
theories/Again3e.v
theories/Again3f.v
theories/Properties32.v
theories/SpecSeen.v
theories/Seen.v
theories/Seen2.v
theories/Properties33.v
theories/SpecEdit.v
theories/Edit.v
theories/Properties34.v
theories/SpecLost.v
theories/Lost.v
theories/Lost2.v
theories/Lost3.v
theories/Properties35.v
theories/SpecBlame3.v
theories/Blame3.v
theories/Properties36.v
theories/Compose2.v
theories/Compose3.v
theories/Properties37.v
theories/SpecPrefix.v
theories/Prefix1.v
theories/Prefix2.v
theories/Prefix3.v
theories/Properties38.v
theories/Prefix4.v
theories/Prefix5.v
theories/Prefix6.v
theories/Properties39.v
theories/SpecDelims.v
theories/Delims.v
theories/Delims2.v
theories/Properties40.v
theories/SpecInside.v
theories/Inside.v
theories/Inside2.v
theories/Inside3.v
theories/Inside4.v
theories/Properties41.v

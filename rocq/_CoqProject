-Q theories Verif

theories/Base.v
theories/ModelIdent.v
theories/SpecIdent.v
theories/ProofBase.v
theories/ProofIdent.v
theories/ProofIdent2.v
theories/ProofIdent3.v
theories/ProofIdent4.v
theories/ProofIdent5.v
theories/PropertiesIdent.v
theories/ModelRef.v
theories/SpecRef.v
theories/ProofRef.v
theories/ProofRef2.v
theories/ProofRef3.v
theories/ProofRef4.v
theories/ProofRef5.v
theories/PropertiesRef.v
theories/ConfRef.v
theories/ModelText.v
theories/SpecText.v
theories/ProofText.v
theories/ProofText2.v
theories/ProofText3.v
theories/PropertiesText.v
theories/ModelMk.v
theories/SpecMk.v
theories/ProofMk.v
theories/ProofMk2.v
theories/ProofMk3.v
theories/PropertiesMk.v
theories/ModelTypes.v
theories/ModelStruct.v
theories/ConfStruct.v
theories/SpecStruct.v
theories/ProofStruct.v
theories/ProofStruct2.v
theories/ProofStruct3.v
theories/ProofStruct4.v
theories/ProofStruct5.v
theories/ProofStruct6.v
theories/ProofStruct7.v
theories/ProofStruct8.v
theories/ProofStruct9.v
theories/ProofStruct10.v
theories/ProofStruct11.v
theories/PropertiesStruct.v
theories/ModelWalk.v
theories/SpecWalk.v
theories/ProofWalk.v
theories/ProofWalk2.v
theories/ProofWalk3.v
theories/ProofWalk4.v
theories/PropertiesWalk.v
theories/SpecConvert.v
theories/ProofConvert.v
theories/ProofConvert2.v
theories/ProofConvert3.v
theories/PropertiesConvert.v
theories/ModelSem.v
theories/SpecSem.v
theories/ProofSem.v
theories/ProofSem2.v
theories/ProofSem3.v
theories/ProofSem4.v
theories/ProofSem5.v
theories/ProofSem6.v
theories/PropertiesSem.v
theories/ModelOut.v
theories/SpecOut.v
theories/ProofOut.v
theories/ProofOut2.v
theories/ProofOut3.v
theories/PropertiesOut.v
theories/ModelPdf.v
theories/SpecPdf.v
theories/ProofPdf.v
theories/ProofPdf2.v
theories/ProofPdf3.v
theories/ProofPdf4.v
theories/ProofPdf5.v
theories/ProofPdf6.v
theories/PropertiesPdf.v
theories/ModelGrammar.v
theories/SpecGrammar.v
theories/ProofGrammar.v
theories/ProofGrammar2.v
theories/ProofGrammar3.v
theories/ProofGrammar4.v
theories/ProofGrammar5.v
theories/PropertiesGrammar.v
theories/ConfGrammar.v
theories/SpecWritten.v
theories/ProofWritten.v
theories/ProofWritten2.v
theories/ProofWritten3.v
theories/ProofWritten4.v
theories/ProofWritten5.v
theories/ProofWritten6.v
theories/PropertiesWritten.v
theories/SpecAmend.v
theories/ProofAmend.v
theories/PropertiesAmend.v
theories/SpecPlace.v
theories/ProofPlace.v
theories/ProofPlace2.v
theories/PropertiesPlace.v
theories/SpecShow.v
theories/ProofShow.v
theories/ProofShow2.v
theories/ProofShow3.v
theories/ProofShow4.v
theories/ProofShow5.v
theories/ProofShow6.v
theories/ProofShow7.v
theories/ProofShow8.v
theories/ProofShow9.v
theories/ProofShow10.v
theories/PropertiesShow.v
theories/ModelMain.v
theories/SpecMain.v
theories/ProofMain.v
theories/ProofMain2.v
theories/ProofMain3.v
theories/ProofMain4.v
theories/ProofMain5.v
theories/ProofMain6.v
theories/ProofMain7.v
theories/ProofMain8.v
theories/PropertiesMain.v
theories/SpecSay.v
theories/ProofSay.v
theories/ProofSay2.v
theories/ProofSay3.v
theories/ProofSay4.v
theories/ProofSay5.v
theories/ProofSay6.v
theories/ProofSay7.v
theories/ProofSay8.v
theories/ProofSay9.v
theories/SpecSay2.v
theories/ProofSay10.v
theories/ProofSay11.v
theories/PropertiesSay.v
theories/SpecSay3.v
theories/ProofSay12.v
theories/ProofSay13.v
theories/ProofSay14.v
theories/ProofSay15.v
theories/ProofSay16.v
theories/ProofSay17.v
theories/PropertiesSay2.v
theories/SpecSay4.v
theories/ProofSay18.v
theories/ProofSay19.v
theories/ProofSay20.v
theories/SpecSay5.v
theories/ProofSay21.v
theories/ProofSay22.v
theories/SpecSay6.v
theories/ProofSay23.v
theories/ProofSay24.v
theories/ProofSay25.v
theories/PropertiesSay3.v
theories/SpecSay7.v
theories/ProofSay26.v
theories/ProofSay27.v
theories/ProofSay28.v
theories/ProofSay29.v
theories/ProofSay30.v
theories/PropertiesSay4.v
theories/SpecSay8.v
theories/ProofSay31.v
theories/ProofSay32.v
theories/PropertiesSay5.v
theories/SpecSay9.v
theories/ProofSay33.v
theories/ProofSay34.v
theories/ProofSay35.v
theories/ProofSay36.v
theories/SampleSay.v
theories/PropertiesSay6.v
theories/SpecSay10.v
theories/ProofSay37.v
theories/ProofSay38.v
theories/ProofSay39.v
theories/SpecSay11.v
theories/ProofSay40.v
theories/SampleSay2.v
theories/PropertiesSay7.v
theories/SpecInform.v
theories/ProofInform.v
theories/SpecSay12.v
theories/ProofSay41.v
theories/PropertiesSay8.v
theories/ModelSave.v
theories/SpecSave.v
theories/ProofSave.v
theories/PropertiesSave.v
theories/SpecKeep.v
theories/ProofKeep.v
theories/ProofKeep2.v
theories/ProofKeep3.v
theories/ProofKeep4.v
theories/PropertiesKeep.v
theories/SpecDisk.v
theories/ProofDisk.v
theories/ProofDisk2.v
theories/SampleDisk.v
theories/PropertiesDisk.v
theories/ModelFixup.v
theories/ProofFixup.v
theories/PropertiesFixup.v
theories/ModelFetch.v
theories/ProofFetch.v
theories/PropertiesFetch.v

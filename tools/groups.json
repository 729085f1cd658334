[
 {
  "name": "PropField",
  "title": "The probability field: properties C01-C18, C76",
  "files": [
   "ProofFieldProps",
   "ProofFieldHist",
   "ProofDiscard",
   "ProofFieldEx",
   "ProofFieldArgs"
  ],
  "header": [
   "From Coq Require Import Reals.",
   "From Verif Require Import Py Num ModelField Grid SpecField ProofFieldProps ProofFieldHist ProofDiscard ProofFieldEx ProofFieldArgs.",
   "From Coq Require Import List.\nImport ListNotations.",
   "Local Open Scope R_scope."
  ]
 },
 {
  "name": "PropFieldFloat",
  "title": "The probability field in binary64: properties C08, C19",
  "files": [
   "ProofFieldFloat"
  ],
  "header": [
   "From Coq Require Import ZArith Reals SpecFloat.",
   "From Verif Require Import Py Num ModelField Grid SpecField ProofFloat ProofFieldFloat."
  ]
 },
 {
  "name": "PropAquifer",
  "title": "Potential, discharge, head and velocity: properties C20-C26",
  "files": [
   "ProofAquifer",
   "ProofHead",
   "ProofAquiferEx",
   "ProofWellEx"
  ],
  "header": [
   "From Coq Require Import Reals Permutation.",
   "From Verif Require Import Py Num ModelAquifer SpecAquifer ProofAquifer ProofHead ProofAquiferEx ProofWellEx.",
   "Local Open Scope R_scope."
  ]
 },
 {
  "name": "PropFit",
  "title": "Fitting the regional flow: properties C27-C35",
  "files": [
   "ProofFit",
   "ProofFitProps",
   "ProofFitEx"
  ],
  "header": [
   "From Coq Require Import Reals Permutation.",
   "From Verif Require Import Py Num ModelAquifer SpecAquifer SpecFit ProofFit ProofFitProps ProofFitEx.",
   "Local Open Scope R_scope."
  ]
 },
 {
  "name": "PropTrace",
  "title": "Particle tracing: properties C36-C47",
  "files": [
   "ProofTraceLoop",
   "ProofTraceTerm",
   "ProofTraceOrder",
   "ProofTraceFlow",
   "ProofTraceField",
   "ProofTraceEx"
  ],
  "header": [
   "From Coq Require Import Reals.",
   "From Verif Require Import Py Num ModelField ModelAquifer ModelTrace ModelDriver SpecAquifer SpecTrace ProofAquiferEx ProofTraceLoop ProofTraceTerm ProofTraceField ProofTraceOrder ProofTraceFlow ProofTraceEx.",
   "Local Open Scope R_scope."
  ]
 },
 {
  "name": "PropObs",
  "title": "Observation filter and summary statistics: properties C48-C54, C75",
  "files": [
   "ProofObs",
   "ProofObsProps",
   "ProofStats"
  ],
  "header": [
   "From Coq Require Import Reals Permutation.",
   "From Verif Require Import Py Num ModelAquifer ModelObs SpecAquifer SpecObs ProofObs ProofObsProps ProofStats.",
   "Local Open Scope R_scope."
  ]
 },
 {
  "name": "PropDist",
  "title": "Distributions: properties C55-C58",
  "files": [
   "ProofDist"
  ],
  "header": [
   "From Coq Require Import Reals String.",
   "From Verif Require Import Py Num ModelDist SpecDist ProofDist.",
   "Local Open Scope R_scope."
  ]
 },
 {
  "name": "PropDriver",
  "title": "Drivers: properties C59-C62, C77",
  "files": [
   "ProofDriver",
   "ProofDriverProps",
   "ProofFuel",
   "ProofDriverEx"
  ],
  "header": [
   "From Coq Require Import Reals SpecFloat.",
   "From Verif Require Import Py Num ModelField ModelAquifer ModelTrace ModelDist ModelDriver SpecField SpecAquifer SpecFit SpecDriver ProofTraceFlow ProofFitProps Lstsq ProofFit ProofDriver ProofDriverProps ProofFuel ProofDriverEx.",
   "Local Open Scope R_scope."
  ]
 },
 {
  "name": "PropPlot",
  "title": "Plots: properties C68-C72, C78",
  "files": [
   "ProofPlot",
   "ProofDecile",
   "ProofPlotEx",
   "ProofContour"
  ],
  "header": [
   "From Coq Require Import Reals List Permutation Sorted.",
   "From Verif Require Import Py Num ModelField ModelAquifer ModelPlot SpecField SpecAquifer SpecPlot ProofPlot ProofDecile ProofPlotEx ProofContour.",
   "Local Open Scope R_scope."
  ]
 },
 {
  "name": "PropArchive",
  "title": "Archives: properties C73, C74, C79",
  "files": [
   "ProofArchive"
  ],
  "header": [
   "From Coq Require Import String ZArith List.",
   "From Verif Require Import Py ModelArchive SpecArchive ProofArchive.",
   "Local Open Scope Z_scope."
  ]
 },
 {
  "name": "PropMain",
  "title": "The whole run: properties C53, C63-C67, C73, C80, C82",
  "files": [
   "ProofMain",
   "ProofMainRun",
   "ProofMainEnd",
   "ProofMainEx",
   "ProofMainFinite",
   "ProofPosed"
  ],
  "header": [
   "From Coq Require Import Reals String List Sorted Permutation.",
   "From Verif Require Import Py Num NumXR ModelField ModelAquifer ModelTrace ModelObs ModelDist ModelDriver ModelPlot ModelArchive ModelMain SpecAquifer SpecFit SpecTrace SpecObs SpecDriver SpecPlot SpecDist SpecArchive SpecMain Lstsq ProofFitProps ProofDriverEx ProofMain ProofMainRun ProofMainEnd ProofMainEx ProofMainFinite ProofPosed SpecField.",
   "Local Open Scope R_scope."
  ]
 },
 {
  "name": "PropData",
  "title": "The shipped data sets: property C81",
  "files": [
   "ProofData"
  ],
  "header": [
   "From Coq Require Import Reals String ZArith List SpecFloat.",
   "From Verif Require Import Py Num ModelAquifer ModelObs ModelDist ModelDriver ModelArchive ModelMain ModelData SpecAquifer SpecFit SpecDist SpecMain ProofData.",
   "Local Open Scope R_scope."
  ]
 },
 {
  "name": "PropWhole",
  "title": "What a whole run computes: property C83",
  "files": [
   "ProofWhole",
   "ProofWholeEx"
  ],
  "header": [
   "From Coq Require Import Reals List.",
   "From Verif Require Import Py Num NumXR ModelField ModelAquifer ModelTrace ModelObs ModelDist ModelDriver ModelPlot ModelArchive ModelMain SpecAquifer SpecFit SpecTrace SpecDriver SpecDist SpecMain SpecField SpecWhole Lstsq ProofFit ProofFitProps ProofFitEx ProofDriverEx ProofMainEx ProofWhole ProofWholeEx.",
   "Local Open Scope R_scope."
  ]
 },
 {
  "name": "PropFloatGrow",
  "title": "The growth loops in binary64: property C08",
  "files": [
   "ProofFloatGrow",
   "ProofFloatStuck"
  ],
  "header": [
   "From Coq Require Import Reals SpecFloat List.",
   "From Verif Require Import Py Num ModelField SpecFloats SpecStuck ProofFloatGrow ProofFloatStuck.",
   "Local Open Scope R_scope."
  ]
 },
 {
  "name": "PropDraw",
  "title": "Drawing: properties C84-C88",
  "files": [
   "ProofDraw",
   "ProofDrawCells"
  ],
  "header": [
   "From Coq Require Import Reals List ZArith.",
   "From Verif Require Import Py Num Grid ModelField ModelAquifer ModelPlot ModelDraw SpecField SpecAquifer SpecPlot SpecDraw ProofField ProofPlotEx ProofContour ProofDraw ProofDrawCells SpecField.",
   "Local Open Scope R_scope."
  ]
 },
 {
  "name": "PropFloatMean",
  "title": "Means of distributions in binary64: property C56",
  "files": [
   "ProofFloatMean"
  ],
  "header": [
   "From Coq Require Import Reals SpecFloat List.",
   "From Verif Require Import Py Num ModelDist SpecFloats ProofFloatMean.",
   "Import ListNotations.",
   "Local Open Scope R_scope."
  ]
 },
 {
  "name": "PropFloatField",
  "title": "Fields in binary64: properties C89-C92",
  "files": [
   "ProofFloatGrid",
   "ProofFloatDist",
   "ProofFloatInsert",
   "ProofFloatWeight",
   "ProofFloatField",
   "ProofFloatCases"
  ],
  "header": [
   "From Coq Require Import ZArith Reals SpecFloat List.",
   "From Verif Require Import Py Num ModelField ModelPlot ProofFloatGrid ProofFloatDist ProofFloatInsert ProofFloatWeight ProofFloatField ProofFloatCases. From Verif Require Import SpecFloats SpecExact SpecField.",
   "Import ListNotations.",
   "Local Open Scope R_scope."
  ]
 },
 {
  "name": "PropFloatTrace",
  "title": "Elapsed time in binary64: property C93",
  "files": [
   "ProofFloatTrace",
   "ProofFloatFlow"
  ],
  "header": [
   "From Coq Require Import ZArith Reals SpecFloat List.",
   "From Verif Require Import Py Num ModelAquifer ModelTrace ModelDriver SpecFloats SpecFloatTrace SpecFloatFlow ProofFloatTrace ProofFloatFlow.",
   "Local Open Scope R_scope."
  ]
 },
 {
  "name": "PropBalance",
  "title": "Water balance: property C94",
  "files": [
   "ProofBalance"
  ],
  "header": [
   "From Coq Require Import Reals List.",
   "From Verif Require Import Py Num ModelAquifer SpecAquifer SpecBalance ProofBalance.",
   "Import ListNotations.",
   "Local Open Scope R_scope."
  ]
 },
 {
  "name": "PropFloatZone",
  "title": "What the weights count, in binary64: property C95 (and C91 without a hypothesis on the result)",
  "files": [
   "ProofFloatZone",
   "ProofFloatZoneEx"
  ],
  "header": [
   "From Coq Require Import ZArith Reals SpecFloat List.",
   "From Verif Require Import Py Num ModelField ModelAquifer ModelTrace ModelDist ModelDriver SpecFloats SpecExact SpecZone SpecDriver ProofTraceFlow ProofFloatZone ProofFloatZoneEx SpecField.",
   "Import ListNotations.",
   "Local Open Scope R_scope."
  ]
 },
 {
  "name": "PropDraws",
  "title": "Draws of a stochastic run",
  "files": [
   "ProofDraws",
   "ProofDrawsEx"
  ],
  "header": [
   "From Coq Require Import ZArith SpecFloat List.",
   "From Verif Require Import Py Num ModelDist ModelField ModelAquifer ModelTrace ModelDriver SpecFloats SpecDriver SpecDraws ProofTraceFlow ProofFloatTrace ProofFloatZoneEx ProofDraws ProofDrawsEx.",
   "Import ListNotations."
  ]
 },
 {
  "name": "PropGrowth",
  "title": "Traces that end: C39 and C97",
  "files": [
   "ProofTraceGrow",
   "ProofTraceClear"
  ],
  "header": [
   "From Coq Require Import Reals.",
   "From Verif Require Import Py Num ModelAquifer ModelTrace ModelDriver SpecAquifer SpecTrace SpecGrowth ProofTraceField ProofTraceGrow ProofTraceClear.",
   "Local Open Scope R_scope."
  ]
 },
 {
  "name": "PropFloatStall",
  "title": "Traces that never end, in binary64: C39 and C40",
  "files": [
   "ProofFloatStall"
  ],
  "header": [
   "From Coq Require Import ZArith SpecFloat.",
   "From Verif Require Import Py Num ModelTrace ModelDriver ProofFloatTrace ProofFloatStall."
  ]
 },
 {
  "name": "PropText",
  "title": "Numbers as text and the summary table: C98, C99",
  "files": [
   "ProofText",
   "ProofTextRepr",
   "ProofTable"
  ],
  "header": [
   "From Coq Require Import Reals String Ascii SpecFloat ZArith.",
   "From Flocq Require Import Core BinarySingleNaN.",
   "From Verif Require Import Py Num ModelAquifer ModelDist ModelObs ModelText ModelLog SpecText SpecTable ProofFloat ProofText ProofTextRepr ProofTable.",
   "Import ListNotations.",
   "Local Open Scope string_scope.",
   "Local Open Scope Z_scope."
  ]
 },
 {
  "name": "PropLog",
  "title": "What a run writes to its log: C100",
  "files": [
   "ProofLog"
  ],
  "header": [
   "From Coq Require Import Reals String Ascii SpecFloat ZArith.",
   "From Verif Require Import Py Num ModelAquifer ModelDist ModelObs ModelMain ModelText ModelLog ModelData SpecText SpecLog ProofText ProofLog.",
   "Import ListNotations.",
   "Local Open Scope string_scope.",
   "Local Open Scope Z_scope."
  ]
 },
 {
  "name": "PropFilterLog",
  "title": "What filter_obs writes to the log: C101",
  "files": [
   "ProofFilterLog"
  ],
  "header": [
   "From Coq Require Import Reals String Ascii SpecFloat ZArith Permutation.",
   "From Verif Require Import Py Num ModelAquifer ModelDist ModelObs ModelText ModelLog SpecText SpecFilterLog ProofText ProofFilterLog.",
   "Import ListNotations.",
   "Local Open Scope string_scope."
  ]
 },
 {
  "name": "PropLines",
  "title": "Lines written by the drivers and at the end of a run: C102",
  "files": [
   "ProofLines"
  ],
  "header": [
   "From Coq Require Import Reals String Ascii SpecFloat ZArith.",
   "From Verif Require Import Py Num ModelAquifer ModelDist ModelObs ModelText ModelLog SpecText SpecTable SpecLines ProofText ProofLines.",
   "Import ListNotations.",
   "Local Open Scope string_scope.",
   "Local Open Scope Z_scope."
  ]
 },
 {
  "name": "PropPathline",
  "title": "Traces and pathlines: C103-C107",
  "files": [
   "ProofPathAffine",
   "ProofPathProgram",
   "ProofTolerance",
   "ProofPathTube",
   "ProofPathWells",
   "ProofPathZone",
   "ProofPathRun",
   "ProofPathRunEx",
   "ProofPathExists",
   "ProofPathExistsRun",
   "ProofPathExistsEx"
  ],
  "header": [
   "From Coq Require Import Reals List.",
   "From Verif Require Import Py Num NumXR ModelField ModelAquifer ModelTrace ModelDist ModelDriver ModelMain SpecAquifer SpecFit SpecTrace SpecDist SpecDriver SpecMain SpecPathline SpecField SpecWhole SpecPathZone ProofTraceEx ProofTraceGrow ProofDriverEx ProofMainEx ProofPathAffine ProofPathProgram ProofTolerance ProofPathTube ProofPathWells ProofPathZone ProofPathRun ProofPathRunEx ProofPathExists ProofPathExistsRun ProofPathExistsEx.",
   "Import ListNotations.",
   "Local Open Scope R_scope."
  ]
 },
 {
  "name": "PropTranscript",
  "title": "Everything a run says, and where it goes: C108-C111",
  "files": [
   "ProofTranscriptMain",
   "ProofTranscriptShape",
   "ProofLogging",
   "ProofLoggingEx",
   "ProofErrorLine",
   "ProofErrorLineEx"
  ],
  "header": [
   "From Coq Require Import String SpecFloat ZArith List.",
   "From Verif Require Import Py Num ModelField ModelAquifer ModelTrace ModelObs ModelDist ModelDriver ModelPlot ModelArchive ModelMain ModelText ModelLog ModelTranscript ModelLogging SpecTranscript SpecLog ProofLog ProofFilterLog ProofTranscriptMain ProofTranscriptShape ProofLogging ProofLoggingEx ProofErrorLine ProofErrorLineEx.",
   "Import ListNotations.",
   "Local Open Scope string_scope."
  ]
 },
 {
  "name": "PropEstimate",
  "title": "The field exactly, and the probability map as an estimate: C112-C114",
  "files": [
   "ProofExactMap",
   "ProofEstimateProps",
   "ProofEstimateEx"
  ],
  "header": [
   "From Coq Require Import Reals ZArith List.",
   "From Verif Require Import Py Num NumXR ModelField ModelAquifer ModelTrace ModelDist ModelDriver ModelMain SpecAquifer SpecFit SpecTrace SpecDriver SpecDist SpecMain Lstsq ProofTraceFlow ProofFitProps ProofFitEx ProofDriverEx ProofMainEx SpecField SpecWhole SpecDraws SpecExactMap SpecMonteCarlo ProofExactMap ProofEstimateProps ProofEstimateEx.",
   "Import ListNotations.",
   "Local Open Scope R_scope."
  ]
 },
 {
  "name": "PropEdges",
  "title": "Edges: tables without values, archives that fail, rays of the quick plot",
  "files": [
   "ProofEdges"
  ],
  "header": [
   "From Coq Require Import Reals ZArith List String.",
   "From Verif Require Import Py Num NumXR ModelField ModelAquifer ModelObs ModelPlot ModelDraw ModelArchive SpecArchive SpecPlot SpecObs ProofEdges.",
   "Import ListNotations.",
   "Local Open Scope R_scope."
  ]
 },
 {
  "name": "PropShift",
  "title": "Another coordinate system: C115",
  "files": [
   "ProofShift",
   "ProofShiftEx"
  ],
  "header": [
   "From Coq Require Import Reals ZArith List.",
   "From Verif Require Import Py Num NumXR ModelField ModelAquifer ModelTrace ModelObs ModelDist ModelDriver ModelMain ModelArchive SpecAquifer SpecFit SpecTrace SpecDriver SpecMain SpecWhole ProofFitProps ProofFitEx ProofDriverEx ProofMainEx SpecShift ProofShift ProofShiftEx SpecField.",
   "Import ListNotations.",
   "Local Open Scope R_scope."
  ]
 },
 {
  "name": "PropOrder",
  "title": "The order of wells and observations: C116, C117",
  "files": [
   "ProofOrder",
   "ProofOrderObs",
   "ProofOrderEx"
  ],
  "header": [
   "From Coq Require Import Reals ZArith List Permutation.",
   "From Verif Require Import Py Num NumXR ModelField ModelAquifer ModelTrace ModelObs ModelDist ModelDriver ModelMain ModelArchive SpecAquifer SpecFit SpecTrace SpecObs SpecDist SpecDriver SpecMain ProofFitProps ProofDriverEx ProofMainEx SpecOrder ProofOrder ProofOrderObs ProofOrderEx SpecField.",
   "Import ListNotations.",
   "Local Open Scope R_scope."
  ]
 },
 {
  "name": "PropUnconfined",
  "title": "Traces and pathlines of unconfined aquifers: C118",
  "files": [
   "ProofPathUnconfined",
   "ProofPathUnconfinedEx"
  ],
  "header": [
   "From Coq Require Import Reals List.",
   "From Verif Require Import Py Num NumXR ModelAquifer ModelTrace ModelDriver SpecAquifer SpecTrace SpecPathline SpecUnconfined ProofPathUnconfined ProofPathUnconfinedEx.",
   "Import ListNotations.",
   "Local Open Scope R_scope."
  ]
 },
 {
  "name": "PropPrint",
  "title": "Printed forms and debug messages: C119, C120",
  "files": [
   "ProofPrint",
   "ProofDebug"
  ],
  "header": [
   "From Coq Require Import String Ascii SpecFloat ZArith List.",
   "From Verif Require Import Py Num ModelField ModelDist ModelMain ModelText ModelLog ModelPrint SpecText SpecLog SpecPrint ProofPrint ProofDebug.",
   "Import ListNotations.",
   "Local Open Scope string_scope.",
   "Local Open Scope Z_scope."
  ]
 },
 {
  "name": "PropFigure",
  "title": "The figures of a run: C121",
  "files": [
   "ProofFigure"
  ],
  "header": [
   "From Coq Require Import Reals ZArith String List.",
   "From Verif Require Import Py Num NumXR ModelField ModelAquifer ModelTrace ModelObs ModelDist ModelDriver ModelPlot ModelArchive ModelMain ModelDraw ModelFigure SpecField SpecAquifer SpecFit SpecObs SpecDriver SpecPlot SpecDist SpecArchive SpecMain SpecDraw SpecFigure ProofFitProps ProofMainEx ProofDriverEx ProofFigure.",
   "Import ListNotations.",
   "Local Open Scope R_scope."
  ]
 },
 {
  "name": "PropLiteral",
  "title": "Quoted and centred text, the announced kind of a run: more of C98 and C100",
  "files": [
   "ProofLiteral"
  ],
  "header": [
   "From Coq Require Import String Ascii SpecFloat ZArith List Reals.",
   "From Verif Require Import Py Num ModelDist ModelMain ModelText ModelLog SpecText SpecLog SpecLiteral ProofLiteral.",
   "Import ListNotations.",
   "Local Open Scope string_scope."
  ]
 },
 {
  "name": "PropWater",
  "title": "The water that a trace follows, confined or not: C122",
  "files": [
   "ProofWaterPath",
   "ProofWaterRun",
   "ProofWaterEx"
  ],
  "header": [
   "From Coq Require Import Reals ZArith String List.",
   "From Verif Require Import Py Num NumXR ModelField ModelAquifer ModelTrace ModelDist ModelDriver ModelMain SpecAquifer SpecFit SpecTrace SpecDist SpecDriver SpecMain SpecPathline SpecUnconfined SpecField SpecWhole SpecPathZone ProofDriverEx ProofMainEx ProofPathUnconfinedEx SpecWater ProofWaterPath ProofWaterRun ProofWaterEx.",
   "Import ListNotations.",
   "Local Open Scope R_scope."
  ]
 },
 {
  "name": "PropRough",
  "title": "Discharge, velocity and traces in binary64: C123 and C124",
  "files": [
   "ProofDischargeAcc",
   "ProofRoughTrace",
   "ProofDischargeTrace",
   "ProofDischargeEx"
  ],
  "header": [
   "From Coq Require Import Reals ZArith SpecFloat List.",
   "From Verif Require Import Py Num NumXR ModelAquifer ModelTrace ModelDriver SpecFloats SpecExact SpecAquifer SpecTrace SpecPathline SpecWhole SpecPathZone SpecWater SpecRough SpecDischarge ProofDischargeAcc ProofRoughTrace ProofDischargeTrace ProofDischargeEx.",
   "Import ListNotations.",
   "Local Open Scope R_scope."
  ]
 },
 {
  "name": "PropVoyage",
  "title": "The capture zones of a run in binary64 and the water: C125",
  "files": [
   "ProofVoyage",
   "ProofVoyageEx"
  ],
  "header": [
   "From Coq Require Import Reals ZArith SpecFloat List.",
   "From Verif Require Import Py Num NumXR ModelField ModelAquifer ModelTrace ModelDist ModelDriver ModelMain SpecFloats SpecExact SpecZone SpecAquifer SpecTrace SpecPathline SpecDriver SpecField SpecWhole SpecPathZone SpecWater SpecRough SpecDischarge ProofDischargeEx SpecVoyage ProofVoyage ProofVoyageEx.",
   "Import ListNotations.",
   "Local Open Scope R_scope."
  ]
 },
 {
  "name": "PropLevel",
  "title": "The potential, the head and the velocity of an aquifer that need not be full, in binary64: C126, C127",
  "files": [
   "ProofLevelPot",
   "ProofLevelVel",
   "ProofLevelEx"
  ],
  "header": [
   "From Coq Require Import Reals ZArith SpecFloat List.",
   "From Verif Require Import Py Num NumXR ModelAquifer SpecFloats SpecAquifer SpecTrace SpecRough SpecDischarge SpecLevel ProofLevelPot ProofLevelVel ProofLevelEx.",
   "Import ListNotations.",
   "Local Open Scope R_scope."
  ]
 },
 {
  "name": "PropLevelTrace",
  "title": "Traces in binary64 in an aquifer that need not be full: C128",
  "files": [
   "ProofLevelTrace",
   "ProofLevelTraceEx"
  ],
  "header": [
   "From Coq Require Import Reals ZArith SpecFloat List.",
   "From Verif Require Import Py Num NumXR ModelAquifer ModelTrace ModelDriver SpecFloats SpecExact SpecTrace SpecAquifer SpecPathline SpecUnconfined SpecField SpecWhole SpecPathZone SpecRough SpecDischarge ProofDischargeEx SpecVoyage SpecLevel ProofLevelEx ProofLevelTrace ProofLevelTraceEx SpecWater.",
   "Import ListNotations.",
   "Local Open Scope R_scope."
  ]
 },
 {
  "name": "PropColumns",
  "title": "Tables with any columns: C129",
  "files": [
   "ProofColumns"
  ],
  "header": [
   "From Coq Require Import Reals String Ascii SpecFloat ZArith List.",
   "From Verif Require Import Py Num ModelObs ModelText ModelLog SpecText SpecTable SpecLines ProofTable ProofLines SpecColumns ProofColumns.",
   "Import ListNotations.",
   "Local Open Scope string_scope."
  ]
 },
 {
  "name": "PropSession",
  "title": "runme.py as a whole: C130",
  "files": [
   "ProofSession"
  ],
  "header": [
   "From Coq Require Import String Ascii SpecFloat ZArith List.",
   "From Verif Require Import Py Num ModelDist ModelArchive ModelMain ModelText ModelLog ModelTranscript ModelLogging ModelData ModelSession SpecTranscript ProofLogging SpecSession ProofSession.",
   "Import ListNotations.",
   "Local Open Scope string_scope."
  ]
 },
 {
  "name": "PropAreas",
  "title": "Axes, probabilities and areas of the plots in binary64: C131",
  "files": [
   "ProofAreas"
  ],
  "header": [
   "From Coq Require Import ZArith Reals SpecFloat List Permutation Sorted.",
   "From Verif Require Import Py Num NumXR ModelField ModelPlot SpecFloats SpecExact SpecField SpecPlot ProofFloatField ProofFloatCases ProofAreas.",
   "Import ListNotations.",
   "Local Open Scope R_scope."
  ]
 },
 {
  "name": "PropDecile",
  "title": "The decile table in binary64: C132",
  "files": [
   "ProofDecileFloat"
  ],
  "header": [
   "From Coq Require Import ZArith Reals SpecFloat List Permutation Sorted.",
   "From Verif Require Import Py Num NumXR ModelField ModelPlot SpecFloats SpecExact SpecField SpecPlot SpecDecile ProofFloatField ProofFloatCases ProofAreas ProofDecileFloat.",
   "Import ListNotations.",
   "Local Open Scope R_scope."
  ]
 },
 {
  "name": "PropStart",
  "title": "Start points in binary64: C133",
  "files": [
   "ProofStartFloat"
  ],
  "header": [
   "From Coq Require Import ZArith Reals SpecFloat List.",
   "From Verif Require Import Py Num NumXR ModelField ModelTrace SpecFloats SpecField SpecStart ProofTraceFlow ProofStartFloat.",
   "Import ListNotations.",
   "Local Open Scope R_scope."
  ]
 }
]
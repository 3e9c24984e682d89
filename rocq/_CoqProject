-Q theories Verif
theories/Base.v
theories/DateModel.v
theories/DateSpec.v
theories/FloatLemmas.v
theories/DateFloat.v
theories/DateCivil.v
theories/DateProofs.v
theories/DateProps.v
theories/StringModel.v
theories/StringSpec.v
theories/StringProofs.v
theories/StringProps.v
theories/HolidayModel.v
theories/HolidaySpec.v
theories/HolidayProofs.v
theories/HolidayRegistry.v
theories/HolidayRoll.v
theories/HolidayProps.v
theories/DayCountModel.v
theories/DayCountSpec.v
theories/DayCountProofs.v
theories/DayCountProps.v
theories/ScheduleModel.v
theories/ScheduleSpec.v
theories/ScheduleProofs.v
theories/ScheduleProps.v
theories/ScriptModel.v
theories/ScriptSpec.v
theories/ScriptEval.v
theories/ScriptCompile.v
theories/ScriptMachine.v
theories/ScriptConst.v
theories/ScriptIndex.v
theories/ScriptNum.v
theories/ScriptProps.v
theories/FuzzyModel.v
theories/FuzzySpec.v
theories/FuzzyProofs.v
theories/FuzzyClear.v
theories/FuzzyProps.v
theories/FloatReal.v
theories/RandomModel.v
theories/RandomSpec.v
theories/RandomProofs.v
theories/RandomProps.v
theories/Vec.v
theories/BridgeModel.v
theories/BridgeSpec.v
theories/BridgeProofs.v
theories/BridgeProps.v
theories/SimModel.v
theories/SimProofs.v
theories/SimProps.v
theories/EnvModel.v
theories/EnvSpec.v
theories/EnvProps.v
theories/QueueModel.v
theories/QueueSpec.v
theories/QueueProofs.v
theories/QueueProps.v
theories/PoolModel.v
theories/PoolSpec.v
theories/PoolProofs.v
theories/PoolProps.v
theories/IncrementProps.v
theories/OMap.v
theories/EventModel.v
theories/EventSpec.v
theories/EventProofs.v
theories/EventProps.v
theories/RepoModel.v
theories/RepoSpec.v
theories/RepoProofs.v
theories/RepoProps.v
theories/GlobalModel.v
theories/GlobalSpec.v
theories/GlobalProofs.v
theories/FixingProofs.v
theories/GlobalProps.v
theories/DictModel.v
theories/DictSpec.v
theories/DictProofs.v
theories/DictProps.v
theories/SplatModel.v
theories/SplatSpec.v
theories/SplatProofs.v
theories/ShareModel.v
theories/ShareSpec.v
theories/ShareProofs.v
theories/SplatProps.v
theories/BlockModel.v
theories/BlockSpec.v
theories/BlockProofs.v
theories/AadModel.v
theories/AadStore.v
theories/AadProofs.v
theories/AadSpec.v
theories/AadExec.v
theories/AadRealSpec.v
theories/AadReal.v
theories/AadGradient.v
theories/BlockProps.v
theories/AadProps.v
theories/InterpModel.v
theories/InterpSpec.v
theories/InterpProofs.v
theories/InterpProps.v
theories/CubicModel.v
theories/CubicProofs.v
theories/CubicSpec.v
theories/CubicProps.v
theories/BandModel.v
theories/BandSpec.v
theories/BandProofs.v
theories/PdeSpec.v
theories/PdeProofs.v
theories/BandProps.v
theories/PdeProps.v
theories/BrentModel.v
theories/BrentSpec.v
theories/BrentProofs.v
theories/BrentProps.v
theories/CurveModel.v
theories/CurveSpec.v
theories/CurveProofs.v
theories/CurveProps.v
theories/MatrixModel.v
theories/MatrixSpec.v
theories/MatrixProofs.v
theories/MatrixProps.v
theories/FormatModel.v
theories/FormatSpec.v
theories/FormatProofs.v
theories/FormatParseProofs.v
theories/FormatProps.v
theories/NdModel.v
theories/NdSpec.v
theories/NdProofs.v
theories/NdProps.v
theories/DateTimeModel.v
theories/PathModel.v
theories/PathSpec.v
theories/PathProofs.v
theories/PathProps.v
theories/UnderlyingModel.v
theories/UnderlyingSpec.v
theories/UnderlyingProofs.v
theories/UnderlyingProps.v
theories/IndexModel.v
theories/IndexSpec.v
theories/IndexProofs.v
theories/IndexProps.v
theories/BlackModel.v
theories/BlackSpec.v
theories/BlackProofs.v
theories/BlackNormal.v
theories/BlackProps.v
theories/UnderModel.v
theories/UnderSpec.v
theories/UnderProofs.v
theories/UnderProps.v
theories/FillModel.v
theories/FillSpec.v
theories/FillProofs.v
theories/FillProps.v
theories/BsModel.v
theories/BsSpec.v
theories/BsProofs.v
theories/BsProps.v
theories/DupireModel.v
theories/DupireSpec.v
theories/DupireProofs.v
theories/DupireProps.v
theories/ClockModel.v
theories/ClockProofs.v
theories/ClockProps.v
theories/MesherModel.v
theories/MesherSpec.v
theories/MesherProofs.v
theories/MesherProps.v
theories/ParserModel.v
theories/ParserFuel.v
theories/ParserSpec.v
theories/ParserWords.v
theories/ParserProofs.v
theories/ParserSafe.v
theories/ParserPrint.v
theories/ParserProps.v
theories/DomainModel.v
theories/DomainSpec.v
theories/DomainProofs.v
theories/DomainSound.v
theories/DomainScript.v
theories/DomainGrid.v
theories/DomainFits.v
theories/DomainProps.v
theories/LinNum.v
theories/LinModel.v
theories/LinSpec.v
theories/LinProofs.v
theories/LinUpper.v
theories/LinProps.v
theories/CholModel.v
theories/CholSpec.v
theories/CholProofs.v
theories/CholAlgebra.v
theories/CholSolve.v
theories/CholFinal.v
theories/CholProps.v
theories/CgModel.v
theories/CgSpec.v
theories/CgAlgebra.v
theories/CgProofs.v
theories/CgProps.v
theories/WideModel.v
theories/WideSpec.v
theories/WideProofs.v
theories/WideProps.v
theories/StackModel.v
theories/DebugModel.v
theories/StackSpec.v
theories/StackProofs.v
theories/StackProps.v
theories/SmoothModel.v
theories/SmoothSpec.v
theories/SmoothProofs.v
theories/SmoothProps.v
theories/StatModel.v
theories/StatSpec.v
theories/StatProofs.v
theories/StatProps.v
theories/RoundModel.v
theories/RoundProofs.v
theories/RoundProps.v
theories/NoteModel.v
theories/NoteSpec.v
theories/NoteProofs.v
theories/NoteProps.v
theories/HeaderModel.v
theories/HeaderSpec.v
theories/HeaderProofs.v
theories/HeaderProps.v
theories/CalibModel.v
theories/CalibSpec.v
theories/CalibProofs.v
theories/CalibDiff.v
theories/CalibProps.v
theories/MertonSpec.v
theories/MertonProofs.v
theories/MertonProps.v
theories/NormalModel.v
theories/NormalSpec.v
theories/NormalSpline.v
theories/NormalProofs.v
theories/NormalInverse.v
theories/NormalRough.v
theories/NormalProps.v
theories/ValueModel.v
theories/ValueSpec.v
theories/ValueProofs.v
theories/ValueTrees.v
theories/ValueReal.v
theories/ValueMain.v
theories/ValueSound.v
theories/ValueProps.v
theories/SplatFileModel.v
theories/SplatFileSpec.v
theories/SplatFileProofs.v
theories/SplatFileTree.v
theories/SplatFileShare.v
theories/SplatFileCells.v
theories/SplatFileProps.v
theories/RiskHom.v
theories/RiskModel.v
theories/RiskSpec.v
theories/RiskProofs.v
theories/RiskProps.v
theories/JsonModel.v
theories/JsonSpec.v
theories/JsonText.v
theories/JsonProofs.v
theories/JsonProps.v
theories/CalendarData.v
theories/SetupModel.v
theories/SetupSpec.v
theories/SetupData.v
theories/SetupProofs.v
theories/SetupProps.v
theories/RateModel.v
theories/RateSpec.v
theories/RateProofs.v
theories/RateProps.v
theories/SplatTextProps.v
theories/CoordModel.v
theories/CoordProofs.v
theories/CoordProps.v
theories/AuditModel.v
theories/AuditSpec.v
theories/AuditProofs.v
theories/AuditProps.v
theories/ExcelModel.v
theories/ExcelSpec.v
theories/ExcelProofs.v
theories/ExcelProps.v
theories/FlagModel.v
theories/FlagSpec.v
theories/FlagProofs.v
theories/FlagProps.v
theories/SheetModel.v
theories/SheetSpec.v
theories/SheetProofs.v
theories/SheetProps.v
theories/RsgModel.v
theories/RsgSpec.v
theories/RsgProofs.v
theories/RsgProps.v
theories/DealModel.v
theories/DealSpec.v
theories/DealProofs.v
theories/DealProps.v
theories/MarketModel.v
theories/MarketSpec.v
theories/MarketProofs.v
theories/MarketProps.v
theories/MultiModel.v
theories/MultiSpec.v
theories/MultiProofs.v
theories/MultiReal.v
theories/MultiProps.v
theories/DriverModel.v
theories/DriverSpec.v
theories/DriverProofs.v
theories/DriverProps.v
theories/YieldModel.v
theories/YieldSpec.v
theories/YieldProofs.v
theories/YieldProps.v
theories/DrawModel.v
theories/DrawSpec.v
theories/DrawProofs.v
theories/DrawProps.v
theories/RecordModel.v
theories/RecordSpec.v
theories/RecordProofs.v
theories/RecordProps.v
theories/PriceModel.v
theories/PriceSpec.v
theories/PriceProofs.v
theories/PriceReal.v
theories/PriceProps.v
theories/ExpectSpec.v
theories/ExpectProofs.v
theories/ExpectProps.v
theories/MomentSpec.v
theories/MomentProofs.v
theories/MomentProps.v
theories/RollSpec.v
theories/RollProofs.v
theories/RollTaylor.v
theories/RollProps.v
theories/DriftSpec.v
theories/DriftProofs.v
theories/DriftProps.v
theories/MomentValueProps.v
theories/SlopeSpec.v
theories/SlopeProofs.v
theories/SlopeProps.v
theories/MertonSeriesProps.v
theories/GammaProps.v
theories/RepeatSpec.v
theories/RepeatProofs.v
theories/RepeatProps.v
theories/StrikeSpec.v
theories/StrikeProofs.v
theories/StrikeProps.v
theories/GreekProps.v
theories/BcgProps.v

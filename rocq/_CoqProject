-Q theories Verif
theories/Base.v
theories/TypesModel.v
theories/FilterModel.v
theories/FilterSpec.v
theories/FilterProofs.v
theories/T_Filters.v
theories/DriverModel.v
theories/DriverSpec.v
theories/DriveLoop.v
theories/DriveProps.v
theories/GraphProps.v
theories/GraphProps2.v
theories/DriveTop.v
theories/DriveMore.v
theories/DriveFail.v
theories/T_Driver.v
theories/HeaderModel.v
theories/HeaderSpec.v
theories/HeaderProofs.v
theories/HeaderCount.v
theories/CliProofs.v
theories/HeaderMore.v
theories/HeaderFull.v
theories/T_Header.v
theories/BytesModel.v
theories/DcModel.v
theories/DcSpec.v
theories/BytesProofs.v
theories/DcProofs.v
theories/T_Dc.v
theories/ReaderModel.v
theories/ReaderSpec.v
theories/ReaderProofs.v
theories/ReaderLines.v
theories/Utf8Spec.v
theories/DecompressModel.v
theories/DecompressProofs.v
theories/T_Reader.v
theories/T_EndToEnd.v
theories/InputModel.v
theories/InputSpec.v
theories/InputProofs.v
theories/T_Input.v
theories/MultiModel.v
theories/MultiSpec.v
theories/MultiProofs.v
theories/MultiProofs2.v
theories/SortProofs.v
theories/T_Multi.v
theories/CsvUtilModel.v
theories/CsvUtilSpec.v
theories/CsvUtilProofs.v
theories/T_CsvUtil.v
theories/TimestampModel.v
theories/TimestampSpec.v
theories/TimestampProofs.v
theories/T_Timestamp.v
theories/CsvModel.v
theories/CsvSpec.v
theories/CsvProofs.v
theories/CsvProofs2.v
theories/T_Csv.v
theories/T_CsvOpen.v
theories/T_CsvOut.v
theories/ZipModel.v
theories/CrcProofs.v
theories/ZipSpec.v
theories/ZipProofs.v
theories/ZipAny.v
theories/T_Zip.v
theories/ProgramModel.v
theories/ProgramSpec.v
theories/ProgramProofs.v
theories/T_Program.v
theories/T_Options.v
theories/T_Options2.v
theories/T_Whole.v
theories/T_Whole2.v
theories/T_WholeEx.v
theories/T_Directory.v
theories/DriveClean.v
theories/WriterModel.v
theories/WriterSpec.v
theories/WriterProofs.v
theories/T_Writer.v
theories/T_WriterEx.v
theories/T_Builtin.v
theories/DcLayout.v
theories/DcLayoutProofs.v
theories/T_DcLayout.v
theories/TimeSpec.v
theories/T_Time.v
theories/T_CsvTime.v
theories/CsvQuoteSpec.v
theories/T_CsvQuote.v
theories/T_CsvAuto.v
theories/CliCsvSpec.v
theories/T_CliCsv.v
theories/CrcSpec.v
theories/T_Crc.v
theories/RouteSpec.v
theories/RouteProofs.v
theories/FanProofs.v
theories/SplitProofs.v
theories/T_Route.v
theories/ZstModel.v
theories/ZstSpec.v
theories/T_Zst.v
theories/WholeCsvSpec.v
theories/T_WholeCsv.v
theories/DamageSpec.v
theories/T_Damage.v
theories/T_WholeCsvEx.v
theories/PackSpec.v
theories/T_Pack.v
theories/T_PackEx.v
theories/AnySpec.v
theories/T_WholeAny.v
theories/T_WholeAnyEx.v
theories/StreamSpec.v
theories/T_Stream.v
theories/T_StreamChop.v
theories/T_CsvCut.v
theories/DcgenModel.v
theories/DcgenSpec.v
theories/T_Dcgen.v
theories/SharedModel.v
theories/SharedSpec.v
theories/T_Shared.v
theories/T_SharedEx.v
theories/InfiModel.v
theories/InfiSpec.v
theories/CsvStreamSpec.v
theories/T_CsvStream.v
theories/T_Infi.v
theories/T_InfiEx.v
theories/GraphSuccess.v
theories/SuccessSpec.v
theories/T_Success.v
theories/ExamplesModel.v
theories/ExamplesSpec.v
theories/T_Examples.v
theories/T_ExamplesRun.v
theories/T_ExamplesMore.v
theories/T_ExamplesEx.v
theories/CalendarSpec.v
theories/ChronoModel.v
theories/CalendarProofs.v
theories/DateTextSpec.v
theories/DateTextProofs.v
theories/ZoneProofs.v
theories/T_DateText.v
theories/T_Bounds.v
theories/T_Shown.v
theories/T_DigitText.v
theories/NewYork.v
theories/T_DateEx.v
theories/T_RepoTests.v
theories/CommandModel.v
theories/CommandSpec.v
theories/CommandProofs.v
theories/T_Command.v
theories/T_HumanAuto.v
theories/LawsSpec.v
theories/T_Laws.v
theories/T_LawsEx.v
theories/InPlaceModel.v
theories/InPlaceSpec.v
theories/T_InPlace.v
theories/T_InPlaceEx.v
theories/T_Laws2.v
theories/T_Laws2Ex.v
theories/LinesSpec.v
theories/T_Lines.v
theories/T_LinesEx.v
theories/HttpModel.v
theories/T_Http.v
theories/T_HttpEx.v
theories/GuessSpec.v
theories/T_Guess.v
theories/T_GuessEx.v
theories/InterruptModel.v
theories/InterruptSpec.v
theories/T_Interrupt.v
theories/LayoutSpec.v
theories/LayoutProofs.v
theories/T_Layout.v
theories/T_LayoutEx.v
theories/ExactSpec.v
theories/ExactProofs.v
theories/T_Exact.v
theories/T_DamageZip.v
theories/T_DamageZipEx.v
theories/T_DamageDir.v
theories/T_DamageDirEx.v
theories/InfiGzModel.v
theories/InfiGzSpec.v
theories/T_InfiGz.v
theories/DamageAnySpec.v
theories/T_DamageAny.v
theories/T_DamageAnyEx.v
theories/BreakOffSpec.v
theories/T_BreakOff.v
theories/T_BreakOffEx.v

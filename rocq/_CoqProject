-Q theories Verif
theories/Base.v
theories/L_BufMem.v
theories/L_Bufio.v
theories/L_Calculate.v
theories/L_Cbor.v
theories/L_CborDoc.v
theories/L_CborLoop.v
theories/L_CborWrite.v
theories/L_Columns.v
theories/L_Components.v
theories/L_Convert.v
theories/L_ConvertCsv.v
theories/L_Csv.v
theories/L_CsvBack.v
theories/L_CsvIn.v
theories/L_CsvOut.v
theories/L_CsvSpec.v
theories/L_CsvText.v
theories/L_Decimal.v
theories/L_Detect.v
theories/L_DetectCsv.v
theories/L_DetectJson.v
theories/L_DocParse.v
theories/L_DocText.v
theories/L_DocTime.v
theories/L_DocTyped.v
theories/L_Encode.v
theories/L_EntryBuffer.v
theories/L_EntryBufferAlone.v
theories/L_EntryBufferJson.v
theories/L_Hash.v
theories/L_Heap.v
theories/L_Histo.v
theories/L_HistoQ.v
theories/L_Identity.v
theories/L_JsonBad.v
theories/L_JsonBuf.v
theories/L_JsonCut.v
theories/L_JsonDoc.v
theories/L_JsonMarshal.v
theories/L_JsonRead.v
theories/L_JsonSteady.v
theories/L_JsonTotal.v
theories/L_JsonWriter.v
theories/L_MetaSet.v
theories/L_NDJson.v
theories/L_Preview.v
theories/L_ReplaceCR.v
theories/L_Signing.v
theories/L_Stats.v
theories/L_Stepfile.v
theories/L_Stream.v
theories/L_Tabular.v
theories/L_Tee.v
theories/L_Texts.v
theories/L_Time.v
theories/L_Unmarshal.v
theories/L_UnmarshalInv.v
theories/L_Utf8.v
theories/L_ValidateBatch.v
theories/L_ValidateCsv.v
theories/L_Vals.v
theories/L_Value.v
theories/L_ValueMore.v
theories/L_Xlsx.v
theories/M_Accrual.v
theories/M_BufMem.v
theories/M_Bufio.v
theories/M_Calculate.v
theories/M_Cbor.v
theories/M_Columns.v
theories/M_Compare.v
theories/M_Components.v
theories/M_Convert.v
theories/M_Csv.v
theories/M_CsvText.v
theories/M_Decimal.v
theories/M_Detect.v
theories/M_DetectRead.v
theories/M_Diff.v
theories/M_Doc.v
theories/M_DocText.v
theories/M_Encode.v
theories/M_EntryBuffer.v
theories/M_Files.v
theories/M_Float.v
theories/M_Formats.v
theories/M_Generate.v
theories/M_Hash.v
theories/M_Heap.v
theories/M_Histo.v
theories/M_Identity.v
theories/M_Json.v
theories/M_JsonWrite.v
theories/M_MetaSet.v
theories/M_NDJson.v
theories/M_Page.v
theories/M_Preview.v
theories/M_ReplaceCR.v
theories/M_Requires.v
theories/M_Signing.v
theories/M_Sink.v
theories/M_Stats.v
theories/M_Stepfile.v
theories/M_Stream.v
theories/M_Strings.v
theories/M_Tabular.v
theories/M_Tee.v
theories/M_TestCase.v
theories/M_Texts.v
theories/M_Time.v
theories/M_Unmarshal.v
theories/M_Utf8.v
theories/M_Validate.v
theories/M_ValidateBody.v
theories/M_Vals.v
theories/M_Value.v
theories/M_Viz.v
theories/M_Xlsx.v
theories/P_Accrual.v
theories/P_Calculate.v
theories/P_Cbor.v
theories/P_Columns.v
theories/P_Compare.v
theories/P_Components.v
theories/P_Convert.v
theories/P_ConvertAny.v
theories/P_ConvertCsv.v
theories/P_Csv.v
theories/P_Detect.v
theories/P_DetectRead.v
theories/P_Diff.v
theories/P_DocText.v
theories/P_Empty.v
theories/P_Encode.v
theories/P_Encode2.v
theories/P_EntryBuffer.v
theories/P_Files.v
theories/P_Formats.v
theories/P_Generate.v
theories/P_Hash.v
theories/P_Heap.v
theories/P_Histo.v
theories/P_Identity.v
theories/P_Json.v
theories/P_MetaSet.v
theories/P_NDJson.v
theories/P_Page.v
theories/P_Preview.v
theories/P_ReplaceCR.v
theories/P_Requires.v
theories/P_Signing.v
theories/P_Stats.v
theories/P_Stepfile.v
theories/P_Stream.v
theories/P_Tabular.v
theories/P_TestCase.v
theories/P_Texts.v
theories/P_Validate.v
theories/P_ValidateBody.v
theories/P_Vals.v
theories/P_Value.v
theories/P_Viz.v
theories/P_Xlsx.v
theories/S_Calculate.v
theories/S_Cbor.v
theories/S_Columns.v
theories/S_Compare.v
theories/S_Components.v
theories/S_Convert.v
theories/S_ConvertAny.v
theories/S_ConvertCsv.v
theories/S_Csv.v
theories/S_CsvCells.v
theories/S_Detect.v
theories/S_DetectRead.v
theories/S_Diff.v
theories/S_DocText.v
theories/S_Empty.v
theories/S_Encode.v
theories/S_EntryBuffer.v
theories/S_Formats.v
theories/S_Generate.v
theories/S_Hash.v
theories/S_Heap.v
theories/S_Histo.v
theories/S_JsonBack.v
theories/S_JsonPure.v
theories/S_JsonText.v
theories/S_MetaSet.v
theories/S_NDJson.v
theories/S_Page.v
theories/S_Preview.v
theories/S_ReplaceCR.v
theories/S_Signing.v
theories/S_Stats.v
theories/S_Stepfile.v
theories/S_Stream.v
theories/S_Tabular.v
theories/S_Tee.v
theories/S_TestCase.v
theories/S_Texts.v
theories/S_Utf8.v
theories/S_Validate.v
theories/S_ValidateBody.v
theories/S_Vals.v
theories/S_Value.v
theories/S_Viz.v
theories/S_Xlsx.v

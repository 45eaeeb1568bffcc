-Q theories Verif
theories/Base.v
theories/M_Amount.v
theories/S_Decimal.v
theories/S_Amount.v
theories/L_Dec.v
theories/L_Amount.v
theories/M_Convert.v
theories/S_Convert.v
theories/L_Convert.v
theories/Properties_Amount.v
theories/Properties_Convert.v
theories/M_Regex.v
theories/M_Date.v
theories/L_Regex.v
theories/S_Date.v
theories/L_Calendar.v
theories/L_Date.v
theories/S_DateText.v
theories/L_DateText.v
theories/Properties_Date.v
theories/M_Parser.v
theories/M_Writer.v
theories/S_Ledger.v
theories/L_RegexSound.v
theories/L_Parser.v
theories/L_RoundTrip.v
theories/L_Entries.v
theories/Properties_Parser.v
theories/M_Names.v
theories/M_Tags.v
theories/L_Sort.v
theories/S_Names.v
theories/L_Names.v
theories/L_Tags.v
theories/Properties_Names.v
theories/M_Ledger.v
theories/S_Books.v
theories/L_Registers.v
theories/L_Resolve.v
theories/L_Resolve2.v
theories/L_Check.v
theories/L_Load.v
theories/L_Move.v
theories/Properties_Ledger.v
theories/L_Tree.v
theories/L_Tree2.v
theories/L_Balance.v
theories/Properties_Tree.v
theories/M_Report.v
theories/S_Report.v
theories/L_Totals.v
theories/L_Propagate.v
theories/L_Aggregate.v
theories/L_Cumulative.v
theories/L_Register.v
theories/L_Report.v
theories/Properties_Report.v
theories/M_Gen.v
theories/S_Gen.v
theories/L_Gen.v
theories/L_Gen2.v
theories/Properties_Gen.v
theories/M_Bmo.v
theories/S_Bmo.v
theories/Properties_Bmo.v
theories/M_Files.v
theories/Properties_Files.v
theories/M_TestCmd.v
theories/S_TestCmd.v
theories/L_Local.v
theories/Properties_Tests.v
theories/M_Commands.v
theories/S_Commands.v
theories/L_Format.v
theories/L_Words.v
theories/L_Recheck.v
theories/L_Modify.v
theories/Properties_Commands.v
theories/M_Database.v
theories/S_Database.v
theories/L_Database.v
theories/L_Database2.v
theories/Properties_Database.v
theories/M_Rules.v
theories/S_Rules.v
theories/L_Rules.v
theories/L_Rules2.v
theories/Properties_Rules.v
theories/Properties_Rules2.v
theories/M_Ofx.v
theories/S_Ofx.v
theories/L_Ofx.v
theories/L_Ofx2.v
theories/L_Ofx3.v
theories/Properties_Ofx.v
theories/M_Csv.v
theories/S_Csv.v
theories/L_Csv.v
theories/L_Csv2.v
theories/L_Csv3.v
theories/L_Csv4.v
theories/S_CsvRules.v
theories/L_CsvRules.v
theories/L_CsvRules2.v
theories/Properties_Csv.v
theories/M_Gnucash.v
theories/S_Gnucash.v
theories/L_Gnucash.v
theories/L_Gnucash2.v
theories/L_Gnucash3.v
theories/L_Gnucash4.v
theories/L_Gnucash5.v
theories/Properties_Gnucash.v
theories/M_Listing.v
theories/S_Listing.v
theories/L_Listing.v
theories/L_Listing2.v
theories/L_Listing3.v
theories/Properties_Listing.v
theories/M_Web.v
theories/S_Web.v
theories/L_Web.v
theories/L_WebQ.v
theories/L_WebBfs.v
theories/L_WebPrice.v
theories/Properties_Web.v
theories/M_Json.v
theories/L_Json.v
theories/M_Page.v
theories/Properties_Json.v
theories/S_Page.v
theories/L_Page.v
theories/Properties_Page.v
theories/M_Views.v
theories/S_Views.v
theories/L_Views.v
theories/L_Views2.v
theories/Properties_Views.v
theories/M_Prices.v
theories/L_Prices.v
theories/L_Prices2.v
theories/L_Prices3.v
theories/Properties_Prices.v
theories/M_Ui.v
theories/S_Ui.v
theories/L_Ui.v
theories/Properties_Ui.v
theories/M_Columns.v
theories/S_Columns.v
theories/L_Columns.v
theories/L_Columns2.v
theories/Properties_Columns.v
theories/Properties_Bars.v
theories/M_Output.v
theories/S_Output.v
theories/L_Output.v
theories/L_Output2.v
theories/L_Printed.v
theories/L_Rows.v
theories/Properties_Output.v
theories/L_Table.v
theories/Properties_Table.v
theories/M_Coin.v
theories/S_Coin.v
theories/L_Coin.v
theories/Properties_Coin.v
theories/L_Coin2.v
theories/Properties_Coin2.v
theories/Properties_Coin3.v
theories/M_TestReport.v
theories/S_TestReport.v
theories/Properties_TestReport.v
theories/Properties_TestAgain.v
theories/S_PayOff.v
theories/Properties_PayOff.v
theories/S_PriceFiles.v
theories/Properties_PriceFiles.v
theories/M_Treemap.v
theories/S_Treemap.v
theories/L_Treemap.v
theories/Properties_Treemap.v
theories/S_Written.v
theories/L_Written.v
theories/Properties_Written.v
theories/S_Consistent.v
theories/L_Consistent.v
theories/S_Whole.v
theories/L_Whole.v
theories/Properties_Whole.v
theories/Properties_Consistent.v
theories/S_DateOption.v
theories/Properties_DateOption.v
theories/Properties_YearMonth.v
theories/M_Lists.v
theories/S_Lists.v
theories/L_Lists.v
theories/Properties_Lists.v
theories/Properties_Declared.v
theories/Properties_Compare.v
theories/M_Pattern.v
theories/S_Pattern.v
theories/L_Pattern.v
theories/Properties_Pattern.v
theories/M_Flags.v
theories/S_Flags.v
theories/L_Flags.v
theories/Properties_Flags.v
theories/M_RegLine.v
theories/S_RegLine.v
theories/Properties_RegLine.v
theories/M_Main.v
theories/S_Main.v
theories/Properties_Main.v
theories/Properties_TestFile.v
theories/M_PriceList.v
theories/S_PriceList.v
theories/Properties_PriceList.v
theories/M_PriceStats.v
theories/S_PriceStats.v
theories/Properties_PriceStats.v
theories/M_OfxAccount.v
theories/S_OfxAccount.v
theories/Properties_OfxAccount.v
theories/Properties_Parts.v

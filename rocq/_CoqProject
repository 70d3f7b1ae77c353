-Q theories Verif

theories/Address.v
theories/AddressProofs.v
theories/AddressSpec.v
theories/Bytes.v
theories/Calendar.v
theories/CalendarProofs.v
theories/CalendarSpec.v
theories/CommandLine.v
theories/CommandLineProofs.v
theories/CommandLineSpec.v
theories/Compact.v
theories/Config.v
theories/ConfigCmd.v
theories/ConfigCmdProofs.v
theories/ConfigCmdSpec.v
theories/ConfigProofs.v
theories/ConfigProofs2.v
theories/ConfigSpec.v
theories/Coolj.v
theories/CooljProofs.v
theories/CooljProofs2.v
theories/CooljSpec.v
theories/CountCmd.v
theories/Dates.v
theories/DatesForms.v
theories/DatesProofs.v
theories/DatesProofs10.v
theories/DatesProofs11.v
theories/DatesProofs12.v
theories/DatesProofs13.v
theories/DatesProofs14.v
theories/DatesProofs15.v
theories/DatesProofs16.v
theories/DatesProofs2.v
theories/DatesProofs3.v
theories/DatesProofs4.v
theories/DatesProofs5.v
theories/DatesProofs6.v
theories/DatesProofs7.v
theories/DatesProofs8.v
theories/DatesProofs9.v
theories/DatesSpec.v
theories/Db.v
theories/DbProofs.v
theories/DbSpec.v
theories/Decimal.v
theories/Directory.v
theories/DirectoryProofs.v
theories/DirectorySpec.v
theories/Discard.v
theories/DiscardProofs.v
theories/DiscardSpec.v
theories/DocMap.v
theories/DocSet.v
theories/Dump.v
theories/DumpFile.v
theories/DumpProofs.v
theories/DumpProofs2.v
theories/DumpProofs3.v
theories/DumpSpec.v
theories/Elide.v
theories/ElideProofs.v
theories/ElideSpec.v
theories/EmacsDraft.v
theories/EmacsDraftProofs.v
theories/EmacsDraftSpec.v
theories/EmacsFcc.v
theories/EmacsFccSpec.v
theories/EmacsMua.v
theories/EmacsMuaProofs.v
theories/EmacsMuaSpec.v
theories/EmacsParser.v
theories/EmacsParserProofs.v
theories/EmacsParserProofs2.v
theories/EmacsSearch.v
theories/EmacsSearchProofs.v
theories/EmacsSearchProofs2.v
theories/EmacsSearchSpec.v
theories/EmacsTag.v
theories/EmacsTagProofs.v
theories/EmacsTagProofs2.v
theories/EmacsTagSpec.v
theories/EmacsTree.v
theories/EmacsTreeProofs.v
theories/EmacsTreeProofs2.v
theories/EmacsTreeSpec.v
theories/Features.v
theories/FeaturesProofs.v
theories/FeaturesSpec.v
theories/FieldProc.v
theories/FieldProcProofs.v
theories/FieldProcSpec.v
theories/Fs.v
theories/FsProofs.v
theories/GzLine.v
theories/GzLineProofs.v
theories/GzLineSpec.v
theories/Hex.v
theories/HexProofs.v
theories/HexSpec.v
theories/Hooks.v
theories/IndexFailure.v
theories/IndexMime.v
theories/IndexMimeProofs.v
theories/IndexMimeSpec.v
theories/Insert.v
theories/InsertProofs.v
theories/InsertProofs2.v
theories/InsertSpec.v
theories/Lastmod.v
theories/LastmodProofs.v
theories/LastmodSpec.v
theories/LegacyThreads.v
theories/LegacyThreadsProofs.v
theories/LegacyThreadsProofs2.v
theories/LegacyThreadsProofs3.v
theories/LegacyThreadsProofs4.v
theories/MailStore.v
theories/MailStoreProofs.v
theories/MailStoreProofs2.v
theories/MailStoreProofs3.v
theories/MailStoreProofs4.v
theories/MailStoreSpec.v
theories/Maildir.v
theories/MaildirProofs.v
theories/MaildirProofs2.v
theories/MaildirProofs3.v
theories/MaildirSpec.v
theories/Mbox.v
theories/MboxProofs.v
theories/MboxSpec.v
theories/MessageFile.v
theories/MessageFileProofs.v
theories/MessageFileSpec.v
theories/Meta.v
theories/MetaProofs.v
theories/Mime.v
theories/MimeProofs.v
theories/MimeSpec.v
theories/MsgCache.v
theories/MsgCacheProofs.v
theories/MsgCacheProofs2.v
theories/MsgCacheSpec.v
theories/MsgId.v
theories/MsgIdProofs.v
theories/MsgIdSpec.v
theories/New.v
theories/NewCrash.v
theories/NewExamples.v
theories/NewHistoryExamples.v
theories/NewHistoryProofs.v
theories/NewHistoryProofs2.v
theories/NewHistoryProofs3.v
theories/NewHistoryProofs4.v
theories/NewHistorySpec.v
theories/NewProofs.v
theories/NewProofs10.v
theories/NewProofs11.v
theories/NewProofs12.v
theories/NewProofs2.v
theories/NewProofs3.v
theories/NewProofs4.v
theories/NewProofs5.v
theories/NewProofs6.v
theories/NewProofs7.v
theories/NewProofs8.v
theories/NewProofs9.v
theories/NewSpec.v
theories/NewTagsProofs.v
theories/NmGit.v
theories/NmGitProofs.v
theories/NmGitProofs2.v
theories/NmGitProofs3.v
theories/NmGitProofs4.v
theories/NmGitSpec.v
theories/Open.v
theories/OpenProofs.v
theories/OpenSpec.v
theories/OptionTables.v
theories/Options.v
theories/OptionsProofs.v
theories/OptionsProofs2.v
theories/OptionsSpec.v
theories/P_Address.v
theories/P_Batch.v
theories/P_CommandLine.v
theories/P_Compact.v
theories/P_Config.v
theories/P_ConfigCmd.v
theories/P_Coolj.v
theories/P_CountCmd.v
theories/P_Dates.v
theories/P_DatesForms.v
theories/P_Db.v
theories/P_Directory.v
theories/P_Discard.v
theories/P_Dump.v
theories/P_Dump2.v
theories/P_DumpFile.v
theories/P_Elide.v
theories/P_EmacsDraft.v
theories/P_EmacsFcc.v
theories/P_EmacsMua.v
theories/P_EmacsParser.v
theories/P_EmacsSearch.v
theories/P_EmacsShow.v
theories/P_EmacsTag.v
theories/P_EmacsTree.v
theories/P_Features.v
theories/P_FieldProc.v
theories/P_GzLine.v
theories/P_Hex.v
theories/P_Hooks.v
theories/P_IndexFailure.v
theories/P_IndexMime.v
theories/P_Insert.v
theories/P_Lastmod.v
theories/P_LegacyThreads.v
theories/P_Maildir.v
theories/P_Mbox.v
theories/P_MessageFile.v
theories/P_Meta.v
theories/P_Mime.v
theories/P_MsgCache.v
theories/P_MsgId.v
theories/P_New.v
theories/P_NewHistory.v
theories/P_NewTags.v
theories/P_NmGit.v
theories/P_Open.v
theories/P_Options.v
theories/P_Paths.v
theories/P_Props.v
theories/P_PyBlocks.v
theories/P_PyConfig.v
theories/P_PyLife.v
theories/P_PyProps.v
theories/P_PyTags.v
theories/P_Query.v
theories/P_RbLife.v
theories/P_Regexp.v
theories/P_Reindex.v
theories/P_RelDate.v
theories/P_Reply.v
theories/P_SearchCmd.v
theories/P_SearchOut.v
theories/P_Setup.v
theories/P_Sexp.v
theories/P_ShowCmd.v
theories/P_ShowPart.v
theories/P_ShowText.v
theories/P_Sprinter.v
theories/P_StrUtil.v
theories/P_TagKill.v
theories/P_TagOps.v
theories/P_ThreadSummary.v
theories/P_ThreadTree.v
theories/P_Threads.v
theories/P_Tidy.v
theories/P_Upgrade.v
theories/Paths.v
theories/PathsProofs.v
theories/PathsProofs2.v
theories/PathsProofs3.v
theories/PathsSpec.v
theories/Props.v
theories/PropsProofs.v
theories/PropsSpec.v
theories/PyBlocks.v
theories/PyBlocksProofs.v
theories/PyBlocksProofs2.v
theories/PyBlocksSpec.v
theories/PyConfig.v
theories/PyConfigProofs.v
theories/PyConfigSpec.v
theories/PyLife.v
theories/PyLifeProofs.v
theories/PyLifeProofs2.v
theories/PyLifeProofs3.v
theories/PyLifeSpec.v
theories/PyProps.v
theories/PyPropsProofs.v
theories/PyPropsSpec.v
theories/PyTags.v
theories/PyTagsProofs.v
theories/PyTagsProofs2.v
theories/PyTagsSpec.v
theories/Query.v
theories/QueryProofs.v
theories/QueryProofs2.v
theories/QueryProofs3.v
theories/QueryProofs4.v
theories/QueryProofs5.v
theories/QuerySpec.v
theories/RbLife.v
theories/RbLifeProofs.v
theories/RbLifeProofs10.v
theories/RbLifeProofs11.v
theories/RbLifeProofs2.v
theories/RbLifeProofs3.v
theories/RbLifeProofs4.v
theories/RbLifeProofs5.v
theories/RbLifeProofs6.v
theories/RbLifeProofs7.v
theories/RbLifeProofs8.v
theories/RbLifeProofs9.v
theories/RbLifeSpec.v
theories/Regexp.v
theories/RegexpProofs.v
theories/RegexpSpec.v
theories/RelDate.v
theories/RelDateSpec.v
theories/Reply.v
theories/ReplyProofs.v
theories/ReplySpec.v
theories/SearchCmd.v
theories/SearchCmdProofs.v
theories/SearchCmdSpec.v
theories/SearchOut.v
theories/SearchOutProofs.v
theories/SearchOutSpec.v
theories/Setup.v
theories/SetupSpec.v
theories/Sexp.v
theories/SexpProofs.v
theories/SexpProofs2.v
theories/SexpSpec.v
theories/ShowCmd.v
theories/ShowCmdProofs.v
theories/ShowCmdSpec.v
theories/ShowPart.v
theories/ShowPartProofs.v
theories/ShowPartProofs2.v
theories/ShowPartProofs3.v
theories/ShowPartProofs4.v
theories/ShowPartProofs5.v
theories/ShowPartProofs6.v
theories/ShowPartSpec.v
theories/ShowText.v
theories/ShowTextProofs.v
theories/ShowTextSpec.v
theories/Sprinter.v
theories/SprinterProofs.v
theories/SprinterProofs2.v
theories/SprinterProofs3.v
theories/SprinterSpec.v
theories/StrUtil.v
theories/StrUtilProofs.v
theories/StrUtilSpec.v
theories/StringMap.v
theories/StringMapProofs.v
theories/TagKill.v
theories/TagKillProofs.v
theories/TagKillSpec.v
theories/TagLine.v
theories/TagLineProofs.v
theories/TagLineSpec.v
theories/TagOps.v
theories/TagOpsProofs.v
theories/TagOpsSpec.v
theories/Terms.v
theories/Thread.v
theories/ThreadSummaryProofs.v
theories/ThreadSummarySpec.v
theories/ThreadTree.v
theories/ThreadTreeProofs.v
theories/ThreadTreeSpec.v
theories/Tidy.v
theories/TidyProofs.v
theories/TidyProofs2.v
theories/TidyProofs3.v
theories/TidySpec.v
theories/Upgrade.v
theories/UpgradeProofs.v
theories/UpgradeProofs2.v
theories/UpgradeProofs3.v
theories/UpgradeProofs4.v
theories/UpgradeSpec.v
theories/XQuery.v

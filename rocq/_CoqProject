-Q theories Verif
theories/Str.v
theories/Keys.v
theories/Modes.v
theories/KanaBuilder.v
theories/FormChanger.v
theories/DictTypes.v
theories/Parser.v
theories/Lru.v
theories/LruPtr.v
theories/Dictionary.v
theories/CState.v
theories/Context.v
theories/DefaultRule.v
theories/ModelTests.v
theories/Demo.v
theories/Spec.v
theories/P_Monad.v
theories/P_Frames.v
theories/P_Inv.v
theories/P_Kana.v
theories/P_Keeps.v
theories/P_Register.v
theories/P_Confirmed.v
theories/T_Frames.v
theories/P_Step.v
theories/T_Keys.v
theories/T_Romaji.v
theories/T_Input.v
theories/T_Auto.v
theories/T_Num.v
theories/T_Form.v
theories/T_KeyParse.v
theories/T_ExactInstr.v
theories/T_Dedup.v
theories/T_Entry.v
theories/T_Lru.v
theories/P_Dict.v
theories/T_Complete.v
theories/T_Escape.v
theories/T_ExactEscape.v
theories/T_Line.v
theories/SaveFs.v
theories/T_Load.v
theories/T_Save.v
theories/T_Abort.v
theories/CApi.v
theories/T_Observe.v
theories/Multi.v
theories/T_Multi.v
theories/P_Safe.v
theories/T_Panic.v
theories/P_Select.v
theories/T_Select.v
theories/T_Reading.v
theories/T_Unhandled.v
theories/P_Tidy.v
theories/T_Handled.v
theories/T_Predict.v
theories/P_Cands.v
theories/T_Offered.v
theories/T_Texts.v
theories/P_Poll.v
theories/T_Poll.v
theories/T_Shipped.v
theories/CMem.v
theories/T_Mem.v
theories/T_Convert.v
theories/T_Saved.v
theories/Fine.v
theories/P_FineAlone.v
theories/P_Fine.v
theories/T_Fine.v
theories/T_FineLearn.v
theories/T_FineLive.v
theories/T_FineDemo.v
theories/T_KeySeq.v
theories/Handles.v
theories/T_Handles.v
theories/Setup.v
theories/T_Setup.v
theories/RulesMem.v
theories/T_RulesMem.v
theories/T_Word.v
theories/T_Sentence.v
theories/T_Delete.v
theories/T_Session.v
theories/T_SessionDemo.v
theories/P_Alike.v
theories/Life.v
theories/T_Life.v
theories/Encoding.v
theories/T_Encoding.v
theories/T_Exact.v
theories/T_ExactAbort.v
theories/T_ExactDict.v
theories/T_ExactC.v
theories/T_ExactSave.v
theories/CText.v
theories/T_CText.v
theories/P_FineAlike.v
theories/FineLife.v
theories/T_FineLife.v
theories/P_SameRule.v
theories/T_SameRule.v
theories/T_Remembered.v
theories/P_Fresh.v
theories/T_Fresh.v
theories/P_Hidden.v
theories/T_FreshSession.v
theories/P_Learn.v
theories/T_Learn.v
theories/ModelTests2.v
theories/P_SameCfg.v
theories/T_Settings.v
theories/T_Lasts.v
theories/LruMem.v
theories/T_LruMem.v
theories/T_ExactOrder.v
theories/T_Ends.v
theories/T_Utf16.v
theories/Reader.v
theories/T_Lines.v
theories/T_ExactPredict.v
theories/T_ExactUnhandled.v
theories/T_Preedit.v
theories/T_InputMode.v
theories/T_Keep.v
theories/T_RuleWords.v
theories/T_OfferedForm.v
theories/T_Cursor.v
theories/P_Contents.v
theories/T_Contents.v
theories/T_Completions.v
theories/Together.v
theories/T_Together.v
theories/T_ReadWhile.v
theories/T_OfferedLookup.v

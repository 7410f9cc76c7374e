-Q theories Verif
theories/M_Algs.v
theories/M_Api.v
theories/M_Array.v
theories/M_Base.v
theories/M_Binary.v
theories/M_Capi.v
theories/M_Cmd.v
theories/M_Compress.v
theories/M_Cv.v
theories/M_DataPoint.v
theories/M_Expr.v
theories/M_Files.v
theories/M_Filter.v
theories/M_Front.v
theories/M_Heap.v
theories/M_Info.v
theories/M_Iter.v
theories/M_Json.v
theories/M_Loss.v
theories/M_Num.v
theories/M_Olm.v
theories/M_OlmSel.v
theories/M_Online.v
theories/M_Param.v
theories/M_Py.v
theories/M_Queue.v
theories/M_Save.v
theories/M_SaveF32.v
theories/M_Script.v
theories/M_Share.v
theories/M_Str.v
theories/M_Text.v
theories/M_Tools.v
theories/M_Vector.v
theories/P_Api.v
theories/P_Array.v
theories/P_Ball.v
theories/P_Binary.v
theories/P_Capi.v
theories/P_Cmd.v
theories/P_Cmd2.v
theories/P_Compress.v
theories/P_Conf.v
theories/P_Conf2.v
theories/P_Conf3.v
theories/P_Cv.v
theories/P_Cv2.v
theories/P_Cv3.v
theories/P_Cv4.v
theories/P_Cv5.v
theories/P_DataPoint.v
theories/P_Dual.v
theories/P_Dual2.v
theories/P_Dual3.v
theories/P_Dual4.v
theories/P_End.v
theories/P_Expr.v
theories/P_F32.v
theories/P_Files.v
theories/P_Files2.v
theories/P_Filter.v
theories/P_Heap.v
theories/P_Idle.v
theories/P_Info.v
theories/P_Info2.v
theories/P_Info3.v
theories/P_Info4.v
theories/P_Inv.v
theories/P_Iter.v
theories/P_Iter2.v
theories/P_Iter3.v
theories/P_Iter4.v
theories/P_Iter5.v
theories/P_Json.v
theories/P_Json2.v
theories/P_Json3.v
theories/P_Json4.v
theories/P_Json5.v
theories/P_Json6.v
theories/P_Json7.v
theories/P_Keep.v
theories/P_Lazy.v
theories/P_Lazy2.v
theories/P_Lines.v
theories/P_Loss.v
theories/P_Loss2.v
theories/P_Loss3.v
theories/P_Nan.v
theories/P_Nan2.v
theories/P_Nan3.v
theories/P_Nan4.v
theories/P_Nan5.v
theories/P_Nan6.v
theories/P_Nan7.v
theories/P_Online.v
theories/P_PA.v
theories/P_Param.v
theories/P_Param2.v
theories/P_Param3.v
theories/P_Parse.v
theories/P_Perc.v
theories/P_Predict.v
theories/P_PrintG.v
theories/P_Py.v
theories/P_Py2.v
theories/P_Py3.v
theories/P_Py4.v
theories/P_Queue.v
theories/P_Queue2.v
theories/P_Queue3.v
theories/P_Real.v
theories/P_Regret.v
theories/P_Regret2.v
theories/P_Safe.v
theories/P_SafeOlm.v
theories/P_SafeSel.v
theories/P_SafeSel2.v
theories/P_Sample.v
theories/P_Save.v
theories/P_Save2.v
theories/P_Save3.v
theories/P_Save4.v
theories/P_Save5.v
theories/P_SaveF32.v
theories/P_SaveF32b.v
theories/P_Script.v
theories/P_Session.v
theories/P_Session2.v
theories/P_Share.v
theories/P_Share2.v
theories/P_Step.v
theories/P_Stg.v
theories/P_Str.v
theories/P_TextBad.v
theories/P_TextFiles.v
theories/P_TextMore.v
theories/P_Tools.v
theories/P_Trained.v
theories/P_Unlimited.v
theories/P_Vector.v
theories/Props_Api.v
theories/Props_Capi.v
theories/Props_Cmd.v
theories/Props_Cv.v
theories/Props_Data.v
theories/Props_Dual.v
theories/Props_Expr.v
theories/Props_Files.v
theories/Props_Filter.v
theories/Props_Finish.v
theories/Props_Front.v
theories/Props_Heap.v
theories/Props_Info.v
theories/Props_Iter.v
theories/Props_Json.v
theories/Props_Lazy.v
theories/Props_Learn.v
theories/Props_Loss.v
theories/Props_Nan.v
theories/Props_Online.v
theories/Props_Param.v
theories/Props_Py.v
theories/Props_Queue.v
theories/Props_Regret.v
theories/Props_Regret2.v
theories/Props_Sample.v
theories/Props_Save.v
theories/Props_Script.v
theories/Props_Share.v
theories/Props_Str.v
theories/Props_Text.v
theories/Props_TextBad.v
theories/Props_Tools.v
theories/Props_Trained.v
theories/Props_Unlimited.v
theories/S_Array.v
theories/S_Capi.v
theories/S_Cmd.v
theories/S_Cv.v
theories/S_Dual.v
theories/S_Expr.v
theories/S_Files.v
theories/S_Filter.v
theories/S_Finish.v
theories/S_Heap.v
theories/S_Info.v
theories/S_Iter.v
theories/S_Json.v
theories/S_Lazy.v
theories/S_Learn.v
theories/S_Loss.v
theories/S_Nan.v
theories/S_Online.v
theories/S_Param.v
theories/S_Py.v
theories/S_Queue.v
theories/S_Real.v
theories/S_Regret.v
theories/S_Sample.v
theories/S_Save.v
theories/S_Script.v
theories/S_Session.v
theories/S_Share.v
theories/S_Str.v
theories/S_Text.v
theories/S_TextBad.v
theories/S_Tools.v
theories/S_Trained.v
theories/S_Unlimited.v
theories/S_Vector.v

-Q theories Verif
theories/Base.v
theories/L_Base.v
theories/Demo.v
theories/M_Content.v
theories/S_Content.v
theories/L_Content.v
theories/L_Content2.v
theories/L_Content3.v
theories/L_Content4.v
theories/P_Content.v
theories/M_Style.v
theories/M_Fit.v
theories/S_Fit.v
theories/L_Fit.v
theories/P_Fit.v
theories/P_Style.v
theories/M_Progress.v
theories/S_Progress.v
theories/L_Progress.v
theories/M_F64.v
theories/M_View.v
theories/S_View.v
theories/L_View.v
theories/L_F64.v
theories/P_View.v
theories/M_TblFit.v
theories/S_TblFit.v
theories/L_TblFit.v
theories/P_TblFit.v
theories/M_Wrap.v
theories/S_Wrap.v
theories/L_Wrap.v
theories/M_Text.v
theories/S_Text.v
theories/P_Wrap.v
theories/L_Text.v
theories/L_Text2.v
theories/L_Text3.v
theories/P_Text.v
theories/M_Fitter.v
theories/S_Fitter.v
theories/L_Fitter.v
theories/P_Fitter.v
theories/M_Render.v
theories/S_Render.v
theories/L_Render.v
theories/P_Render.v
theories/M_Area.v
theories/S_Area.v
theories/P_Area.v
theories/M_List.v
theories/S_List.v
theories/L_List.v
theories/L_List2.v
theories/P_List.v
theories/M_Input.v
theories/S_Input.v
theories/L_Input.v
theories/L_Input2.v
theories/P_Input.v
theories/S_Input2.v
theories/L_Input3.v
theories/P_Input2.v
theories/M_Rect.v
theories/S_Rect.v
theories/P_Rect.v
theories/P_Progress.v
theories/M_Parse.v
theories/S_Parse.v
theories/L_Parse.v
theories/P_Parse.v
theories/M_Regex.v
theories/S_Regex.v
theories/L_Regex.v
theories/P_Regex.v
theories/S_Color.v
theories/L_Color.v
theories/P_Color.v
theories/M_Serde.v
theories/S_Serde.v
theories/P_Serde.v
theories/M_Event.v
theories/S_Event.v
theories/L_Event.v
theories/L_Event2.v
theories/P_Event.v
theories/M_Tick.v
theories/S_Tick.v
theories/L_Tick.v
theories/P_Tick.v
theories/M_Ask.v
theories/S_Ask.v
theories/P_Ask.v
theories/S_Pen.v
theories/P_Pen.v
theories/S_Layout.v
theories/P_Layout.v
theories/S_Origin.v
theories/P_Origin.v
theories/S_Local.v
theories/P_Local.v
theories/T_Repo.v
theories/S_Safe.v
theories/P_Safe.v
theories/S_Exact.v
theories/P_Exact.v
theories/S_Taller.v
theories/P_Taller.v
theories/S_Settle.v
theories/P_Settle.v
theories/P_Drain.v
theories/P_FitExact.v
theories/P_Steps.v
theories/S_Optimal.v
theories/P_Optimal.v
theories/P_Wide.v
theories/S_Config.v
theories/P_Config.v
theories/S_Editor.v
theories/L_Editor.v
theories/P_Editor.v
theories/S_Again.v
theories/P_Again.v
theories/S_Skins.v
theories/P_Skins.v
theories/S_Held.v
theories/P_Held.v
theories/S_Cut.v
theories/P_Cut.v
theories/S_Paint.v
theories/L_Clean.v
theories/P_Paint.v
theories/S_Read.v
theories/P_Read.v
theories/P_ReadField.v
theories/S_Typing.v
theories/P_Typing.v
theories/S_Border.v
theories/P_Border.v
theories/S_Pages.v
theories/P_Pages.v
theories/P_ViewExact.v
theories/P_Block.v
theories/S_Cells.v
theories/P_Cells.v
theories/S_ListRead.v
theories/P_ListRead.v
theories/S_Whole.v
theories/P_Whole.v
theories/S_Paper.v
theories/P_Paper.v
theories/M_Prompt.v
theories/S_Prompt.v
theories/P_Prompt.v
theories/P_Reach.v
theories/S_Point.v
theories/P_Point.v
theories/S_Look.v
theories/P_Look.v
theories/S_ListLook.v
theories/P_ListLook.v
theories/S_PaperLook.v
theories/P_PaperLook.v
theories/S_Session.v
theories/P_Session.v
theories/S_Marked.v
theories/P_Marked.v
theories/S_Columns.v
theories/P_Columns.v
theories/S_Reading.v
theories/P_Reading.v
theories/S_Count.v
theories/P_Count.v
theories/S_Drawn.v
theories/P_Drawn.v
theories/S_Resized.v
theories/P_Resized.v
theories/S_App.v
theories/P_App.v
theories/S_Widgets.v
theories/P_Widgets.v
theories/S_ListDrawn.v
theories/P_ListDrawn.v
theories/S_Keyboard.v
theories/P_Keyboard.v
theories/S_Dialog.v
theories/P_Dialog.v
theories/S_Form.v
theories/P_Form.v
theories/S_FormDrawn.v
theories/P_FormDrawn.v
theories/S_Layers.v
theories/P_Layers.v
theories/M_Scrollable.v
theories/S_Scrollable.v
theories/P_Scrollable.v
theories/M_Inputs.v
theories/S_Inputs.v
theories/P_Inputs.v

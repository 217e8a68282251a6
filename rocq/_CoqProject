-Q theories Verif

theories/PyBase.v
theories/PyBaseFacts.v
theories/Regex.v
theories/RegexFacts.v
theories/Rxn_Model.v
theories/Rxn_Spec.v
theories/Rxn_Proofs.v
theories/Rxn_Count.v
theories/Rxn_More.v
theories/Rxn_Properties.v
theories/Species_Model.v
theories/Species_Spec.v
theories/Species_Proofs.v
theories/Species_Matrix.v
theories/Species_Total.v
theories/Species_Properties.v
theories/Mol_Model.v
theories/Mol_Spec.v
theories/Mol_Proofs.v
theories/Mol_Properties.v
theories/PyReal.v
theories/Energy_Model.v
theories/Energy_Spec.v
theories/Energy_Proofs.v
theories/Energy_Properties.v
theories/Thermo_Model.v
theories/Rate_Model.v
theories/Rate_Spec.v
theories/Rate_Proofs.v
theories/Rate_Witness.v
theories/Rate_Properties.v
theories/RDeriv.v
theories/Thermo_Spec.v
theories/Thermo_Proofs.v
theories/Thermo_Entropy.v
theories/Thermo_Witness.v
theories/Thermo_More.v
theories/Thermo_Properties.v
theories/PyExpr_Model.v
theories/PyExpr_Proofs.v
theories/MF_Model.v
theories/MF_Spec.v
theories/MF_Cover.v
theories/MF_Rate.v
theories/MF_More.v
theories/MF_Witness.v
theories/MF_Properties.v
theories/SS_Model.v
theories/SS_Text.v
theories/SS_Spec.v
theories/SS_Term.v
theories/SS_Deriv.v
theories/SS_Jac.v
theories/SS_Witness.v
theories/SS_Properties.v
theories/Mpi_Model.v
theories/Mpi_Spec.v
theories/Mpi_Proofs.v
theories/Mpi_Properties.v
theories/PyData_Model.v
theories/PyData_Spec.v
theories/PyData_Proofs.v
theories/Fmt_Model.v
theories/Fmt_Proofs.v
theories/Fmt_Properties.v
theories/Kmc_Model.v
theories/Kmc_Spec.v
theories/Kmc_Proofs.v
theories/Kmc_Witness.v
theories/Kmc_Properties.v
theories/KCov_Model.v
theories/KCov_Spec.v
theories/KCov_Proofs.v
theories/KCov_Properties.v
theories/KPlug_Model.v
theories/KPlug_Text.v
theories/KPlug_Spec.v
theories/KPlug_Tof.v
theories/KPlug_Freq.v
theories/KPlug_Cov.v
theories/KPlug_CovRun.v
theories/KPlug_Event.v
theories/KPlug_Properties.v
theories/Newton_Model.v
theories/Newton_Spec.v
theories/Newton_Proofs.v
theories/Newton_Jacobian.v
theories/Newton_Witness.v
theories/Newton_Properties.v
theories/Steady_Model.v
theories/Steady_Spec.v
theories/Steady_Proofs.v
theories/Steady_Rounds.v
theories/Steady_Witness.v
theories/Steady_Properties.v
theories/Attr_Model.v
theories/Attr_Spec.v
theories/Attr_Proofs.v
theories/Attr_Checks.v
theories/Attr_Load.v
theories/Attr_Init.v
theories/Attr_Witness.v
theories/Attr_Properties.v
theories/Memo_Model.v
theories/Memo_Spec.v
theories/Memo_Proofs.v
theories/Memo_Witness.v
theories/Memo_Properties.v
theories/Archive_Model.v
theories/Archive_Spec.v
theories/Archive_Proofs.v
theories/Archive_Witness.v
theories/Archive_Properties.v
theories/Coords_Model.v
theories/Coords_Spec.v
theories/Coords_Proofs.v
theories/Coords_Properties.v
theories/Attr_Equal.v
theories/Ode_Model.v
theories/Ode_Spec.v
theories/Ode_Proofs.v
theories/Ode_Properties.v
theories/Tex_Spec.v
theories/Tex_Proofs.v
theories/Tex_Properties.v
theories/Sym_Model.v
theories/Sym_Spec.v
theories/Sym_Proofs.v
theories/Sym_Eval.v
theories/Sym_Rates.v
theories/Sym_Main.v
theories/Sym_Steady.v
theories/Sym_Jac.v
theories/Sym_Rest.v
theories/Sym_Witness.v
theories/Sym_Properties.v
theories/Run_Model.v
theories/Run_Spec.v
theories/Run_Proofs.v
theories/Run_Witness.v
theories/Run_Properties.v
theories/Xrc_Model.v
theories/Xrc_Spec.v
theories/Xrc_Proofs.v
theories/Xrc_Witness.v
theories/Xrc_Properties.v
theories/Gen_Model.v
theories/Gen_Spec.v
theories/Gen_Proofs.v
theories/Gen_Names.v
theories/Gen_Properties.v
theories/Gen_Load.v
theories/KIn_Model.v
theories/KIn_Spec.v
theories/KIn_Proofs.v
theories/KIn_Properties.v
theories/KRun_Model.v
theories/KRun_Spec.v
theories/KRun_Proofs.v
theories/KRun_Script.v
theories/KRun_Properties.v
theories/Log_Model.v
theories/Log_Spec.v
theories/Log_Proofs.v
theories/Log_Properties.v
theories/MpiDir_Model.v
theories/MpiDir_Proofs.v
theories/MpiDir_Properties.v
theories/Set_Model.v
theories/Set_Proofs.v
theories/Set_Properties.v
theories/Plot_Model.v
theories/Plot_Spec.v
theories/Plot_Proofs.v
theories/Plot_Properties.v
theories/Guess_Model.v
theories/Guess_Spec.v
theories/Guess_Proofs.v
theories/Guess_Properties.v
theories/Solver_Model.v
theories/Solver_Proofs.v
theories/Solver_Sorted.v
theories/Solver_Properties.v
theories/SS_Lead.v
theories/Whole_Spec.v
theories/Whole_Energy.v
theories/Whole_Rates.v
theories/Whole_Bound.v
theories/Whole_Order.v
theories/Whole_Witness.v
theories/Whole_Properties.v
theories/Table_Model.v
theories/Table_Spec.v
theories/Table_Proofs.v
theories/Table_More.v
theories/Table_Witness.v
theories/Table_Properties.v
theories/Scale_Spec.v
theories/Scale_Proofs.v
theories/Scale_Witness.v
theories/Scale_Properties.v
theories/Mol_More.v
theories/PyExpr_Spec.v
theories/PyExpr_Sound.v
theories/PyData_Sound.v
theories/Reader_Properties.v
theories/PyBase_Spec.v
theories/PyBase_Sound.v
theories/Builtins_Properties.v
theories/Restart_Model.v
theories/Restart_Spec.v
theories/Restart_Proofs.v
theories/Restart_Witness.v
theories/Restart_Properties.v
theories/Jobs_Model.v
theories/Jobs_Read.v
theories/Jobs_Spec.v
theories/Jobs_Proofs.v
theories/Jobs_Runs.v
theories/Jobs_Witness.v
theories/Jobs_Properties.v
theories/Collect_Model.v
theories/Collect_Spec.v
theories/Collect_Proofs.v
theories/Collect_Table.v
theories/Collect_Rates.v
theories/Collect_Witness.v
theories/Collect_Properties.v
theories/Gif_Model.v
theories/Gif_Spec.v
theories/Gif_Proofs.v
theories/Gif_File.v
theories/Gif_Whole.v
theories/Gif_Witness.v
theories/Gif_Properties.v
theories/Balance_Spec.v
theories/Balance_Proofs.v
theories/Balance_Witness.v
theories/Balance_Properties.v
theories/Script_Model.v
theories/Script_Spec.v
theories/Script_Proofs.v
theories/Script_Witness.v
theories/Script_Properties.v
theories/Quant_Model.v
theories/Quant_Spec.v
theories/Quant_Proofs.v
theories/Quant_Learn.v
theories/Quant_Palette.v
theories/Quant_Witness.v
theories/Quant_Properties.v
theories/Langmuir_Spec.v
theories/Langmuir_Proofs.v
theories/Langmuir_Witness.v
theories/Langmuir_Properties.v
theories/Thermo_Jump.v
theories/Flow_Spec.v
theories/Flow_Real.v
theories/Flow_Proofs.v
theories/Flow_Langmuir.v
theories/Flow_Unique.v
theories/Flow_Witness.v
theories/Flow_Properties.v
theories/Obj_Model.v
theories/Obj_Spec.v
theories/Obj_Proofs.v
theories/Obj_Properties.v
theories/Thermo_Fall.v
theories/Thermo_Warm.v
theories/Thermo_Data.v
theories/GifRead_Model.v
theories/GifRead_Spec.v
theories/GifRead_Proofs.v
theories/GifRead_Properties.v
theories/Thermo_Modes.v
theories/Attr_Accept.v
theories/Rate_Temp.v
theories/KmcLat_Spec.v
theories/KmcLat_Proofs.v
theories/KmcLat_Witness.v
theories/KmcLat_Properties.v
theories/KmcLat_Reach.v
theories/KmcMean_Spec.v
theories/KmcMean_Proofs.v
theories/KmcMean_Witness.v
theories/KmcMean_Properties.v
theories/PyExpr_Reject.v
theories/RatePress_Spec.v
theories/RatePress_Proofs.v
theories/RatePress_Properties.v
theories/KmcDrift_Spec.v
theories/KmcDrift_Proofs.v
theories/KmcDrift_Witness.v
theories/KmcDrift_Properties.v
theories/KmcEq_Spec.v
theories/KmcEq_Proofs.v
theories/KmcEq_Witness.v
theories/KmcEq_Properties.v
theories/Dissoc_Spec.v
theories/Dissoc_Proofs.v
theories/Dissoc_Witness.v
theories/Dissoc_Properties.v
theories/FirstGuess_Proofs.v
theories/FirstGuess_Properties.v
theories/Hop_Spec.v
theories/Markov_Proofs.v
theories/Hop_Proofs.v
theories/Hop_Witness.v
theories/Hop_Properties.v
theories/Sym_Missing.v
theories/Relax_Markov.v
theories/Relax_Proofs.v
theories/Relax_Witness.v
theories/Relax_Properties.v
theories/Collect_Names.v
theories/Series_Spec.v
theories/Series_Proofs.v
theories/Series_Witness.v
theories/Series_Properties.v
theories/Control_Core.v
theories/Control_Spec.v
theories/Control_Proofs.v
theories/Control_Xrc.v
theories/Control_Witness.v
theories/Control_Properties.v
theories/PyData_Open.v
theories/Accuracy_Spec.v
theories/Accuracy_Proofs.v
theories/Accuracy_Witness.v
theories/Accuracy_Properties.v
theories/Thermo_Lone_Spec.v
theories/Thermo_Lone.v
theories/KIn_Names.v
theories/Accuracy_Agree.v
theories/Control_Limit.v
theories/Attr_Change.v
theories/Accuracy_Rates.v
theories/Accuracy_Any.v

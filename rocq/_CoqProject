-Q theories Verif

theories/PyBase.v
theories/Kin_Model.v
theories/Kin_Spec.v
theories/Kin_Proofs.v
theories/Kin_Props.v
theories/Stats_Model.v
theories/Stats_Spec.v
theories/Stats_Proofs.v
theories/Jacobi_Proofs.v
theories/Decor_Proofs.v
theories/SigFig_Proofs.v
theories/Solver_Spec.v
theories/Solver_Proofs.v
theories/Stats_Props.v
theories/Solver_Props.v
theories/Twiss_Model.v
theories/Twiss_Spec.v
theories/Twiss_Proofs.v
theories/Twiss_Props.v
theories/Match_Model.v
theories/Match_Spec.v
theories/Match_Props.v
theories/Sample_Model.v
theories/Sample_Spec.v
theories/Sample_Proofs.v
theories/Sample_Props.v
theories/Phase_Model.v
theories/Phase_Spec.v
theories/Phase_Proofs.v
theories/Phase_Props.v
theories/Insert_Model.v
theories/Insert_Spec.v
theories/Insert_Props.v
theories/Decoh_Model.v
theories/Decoh_Spec.v
theories/Decoh_Props.v
theories/Bunch_Model.v
theories/Bunch_Spec.v
theories/Bunch_Proofs.v
theories/Bunch_Props.v
theories/PyDict.v
theories/Plot_Model.v
theories/Plot_Spec.v
theories/Plot_Proofs.v
theories/Plot_Props.v
theories/Line_Model.v
theories/Line_Spec.v
theories/Line_Proofs.v
theories/Line_Proofs2.v
theories/Line_Motion.v
theories/Line_Props.v
theories/PyText.v
theories/Lte_Model.v
theories/Lte_Spec.v
theories/Lte_Proofs.v
theories/Lte_Proofs2.v
theories/Lte_Proofs3.v
theories/Lte_Proofs4.v
theories/Lte_Proofs5.v
theories/Lte_Proofs6.v
theories/Lte_Props.v
theories/Json_Model.v
theories/Json_Spec.v
theories/Json_Proofs.v
theories/Json_Props.v
theories/Warp_Model.v
theories/Warp_Spec.v
theories/Warp_Proofs.v
theories/Warp_Props.v
theories/Trace_Model.v
theories/Trace_Spec.v
theories/Trace_Proofs.v
theories/Trace_Proofs2.v
theories/Trace_Proofs3.v
theories/Trace_Proofs4.v
theories/Trace_Proofs5.v
theories/Trace_Proofs6.v
theories/Trace_Proofs7.v
theories/Trace_Props.v
theories/Sdds_Model.v
theories/Sdds_Spec.v
theories/Sdds_Proofs.v
theories/Sdds_Proofs2.v
theories/Sdds_Proofs3.v
theories/Sdds_Proofs4.v
theories/Sdds_Proofs5.v
theories/Sdds_Proofs6.v
theories/Sdds_Proofs7.v
theories/Sdds_Proofs8.v
theories/Sdds_Proofs9.v
theories/Sdds_Proofs10.v
theories/Sdds_Proofs11.v
theories/Sdds_Proofs12.v
theories/Sdds_Proofs13.v
theories/Sdds_Proofs14.v
theories/Sdds_Proofs15.v
theories/Sdds_Proofs16.v
theories/Sdds_Proofs17.v
theories/Sdds_Proofs18.v
theories/Sdds_Samples.v
theories/Sdds_Props.v
theories/Sdds2_Props.v
theories/Sdds_Proofs19.v
theories/Sdds_Spec2.v
theories/Sdds_Proofs20.v
theories/Sdds3_Props.v
theories/Switch_Model.v
theories/Switch_Spec.v
theories/Switch_Proofs.v
theories/Switch_Proofs2.v
theories/Switch_Proofs3.v
theories/Switch_Proofs4.v
theories/Switch_Props.v
theories/Beam_Model.v
theories/Beam_Spec.v
theories/Beam_Proofs.v
theories/Beam_Props.v
theories/Scatter_Model.v
theories/Scatter_Spec.v
theories/Scatter_Proofs.v
theories/Scatter_Props.v
theories/Report_Model.v
theories/Report_Spec.v
theories/Report_Props.v
theories/Ptcl_Model.v
theories/Ptcl_Spec.v
theories/Ptcl_Proofs.v
theories/Ptcl_Props.v
theories/Extremes_Model.v
theories/Extremes_Props.v
theories/Atomic_Props.v
theories/Reuse_Model.v
theories/Reuse_Props.v
theories/Again_Model.v
theories/Again_Props.v
theories/Order_Props.v
theories/Spread_Props.v
theories/Figures_Props.v
theories/Linear_Props.v
theories/Split_Props.v
theories/Tune_Props.v
theories/Strength_Props.v
theories/Ragged_Spec.v
theories/Ragged_Props.v
theories/Uncounted_Spec.v
theories/Uncounted_Props.v
theories/Writer_Props.v
theories/Quantile_Props.v
theories/Centroid_Props.v
theories/Potential_Proofs.v
theories/Potential_Props.v
theories/Histo_Props.v
theories/Store_Spec.v
theories/Store_Proofs.v
theories/Store_Proofs2.v
theories/Store_Props.v
theories/Meta_Props.v
theories/Endian_Props.v
theories/Tower_Proofs.v
theories/Rounding_Props.v
theories/Opal_Props.v
theories/Convert_Props.v
theories/Ltelen_Props.v
theories/Jsonlen_Props.v
theories/Towarp_Props.v
theories/Pos_Props.v
theories/Immat_Props.v
theories/Imsave_Props.v
theories/T3_Model.v
theories/T3read_Props.v
theories/Twmat_Props.v
theories/Twsave_Props.v
theories/Twpos_Props.v
theories/Coord_Model.v
theories/Coord_Props.v
theories/Edits_Props.v

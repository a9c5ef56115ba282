-Q theories Verif
theories/Model_bd.v
theories/Model_corr.v
theories/Model_debug.v
theories/Model_deltaf.v
theories/Model_dyn.v
theories/Model_f64.v
theories/Model_f64bd.v
theories/Model_f64df.v
theories/Model_f64grid.v
theories/Model_f64ld.v
theories/Model_f64many.v
theories/Model_f64mb.v
theories/Model_f64od.v
theories/Model_f64sim.v
theories/Model_fes.v
theories/Model_files.v
theories/Model_grid.v
theories/Model_heap.v
theories/Model_hist.v
theories/Model_histaction.v
theories/Model_ini.v
theories/Model_input.v
theories/Model_main.v
theories/Model_pdist.v
theories/Model_pot.v
theories/Model_potgrid.v
theories/Model_rec.v
theories/Model_setup.v
theories/Model_text.v
theories/Model_traj.v
theories/Model_valid.v
theories/Model_warn.v
theories/Model_xr.v
theories/Proof_base.v
theories/Proof_bd.v
theories/Proof_bd2.v
theories/Proof_complete.v
theories/Proof_complete2.v
theories/Proof_complete3.v
theories/Proof_complete4.v
theories/Proof_complete5.v
theories/Proof_consist.v
theories/Proof_correction.v
theories/Proof_crowd.v
theories/Proof_crowd2.v
theories/Proof_crowd3.v
theories/Proof_debug.v
theories/Proof_dens.v
theories/Proof_diffusion.v
theories/Proof_drift.v
theories/Proof_drift2.v
theories/Proof_drift3.v
theories/Proof_drift4.v
theories/Proof_energy.v
theories/Proof_equil.v
theories/Proof_example.v
theories/Proof_examples.v
theories/Proof_f64.v
theories/Proof_f64b.v
theories/Proof_f64c.v
theories/Proof_f64d.v
theories/Proof_f64df.v
theories/Proof_f64df2.v
theories/Proof_f64e.v
theories/Proof_f64f.v
theories/Proof_f64g.v
theories/Proof_f64h.v
theories/Proof_f64i.v
theories/Proof_f64j.v
theories/Proof_f64k.v
theories/Proof_f64l.v
theories/Proof_f64m.v
theories/Proof_f64many.v
theories/Proof_f64many2.v
theories/Proof_f64mb.v
theories/Proof_f64mb2.v
theories/Proof_f64mb3.v
theories/Proof_f64n.v
theories/Proof_f64o.v
theories/Proof_f64p.v
theories/Proof_f64q.v
theories/Proof_f64r.v
theories/Proof_f64s.v
theories/Proof_f64sim.v
theories/Proof_f64sim2.v
theories/Proof_f64sim3.v
theories/Proof_f64sim4.v
theories/Proof_f64step.v
theories/Proof_f64step2.v
theories/Proof_f64step3.v
theories/Proof_f64t.v
theories/Proof_f64u.v
theories/Proof_f64v.v
theories/Proof_f64w.v
theories/Proof_f64x.v
theories/Proof_fes.v
theories/Proof_files.v
theories/Proof_files10.v
theories/Proof_files11.v
theories/Proof_files12.v
theories/Proof_files13.v
theories/Proof_files14.v
theories/Proof_files15.v
theories/Proof_files16.v
theories/Proof_files2.v
theories/Proof_files3.v
theories/Proof_files4.v
theories/Proof_files5.v
theories/Proof_files6.v
theories/Proof_files7.v
theories/Proof_files8.v
theories/Proof_files9.v
theories/Proof_forget.v
theories/Proof_grid.v
theories/Proof_grid2.v
theories/Proof_heap.v
theories/Proof_hist.v
theories/Proof_histact.v
theories/Proof_histprops.v
theories/Proof_indep.v
theories/Proof_indep2.v
theories/Proof_ini.v
theories/Proof_ini2.v
theories/Proof_ini3.v
theories/Proof_ini4.v
theories/Proof_ini5.v
theories/Proof_input.v
theories/Proof_ld.v
theories/Proof_log.v
theories/Proof_main.v
theories/Proof_main2.v
theories/Proof_main3.v
theories/Proof_newton.v
theories/Proof_newton2.v
theories/Proof_ordinal.v
theories/Proof_params.v
theories/Proof_params2.v
theories/Proof_params3.v
theories/Proof_params4.v
theories/Proof_params5.v
theories/Proof_pdist.v
theories/Proof_pot.v
theories/Proof_rec.v
theories/Proof_repro.v
theories/Proof_repro2.v
theories/Proof_repro3.v
theories/Proof_ring.v
theories/Proof_setup.v
theories/Proof_setup2.v
theories/Proof_setupex.v
theories/Proof_smooth.v
theories/Proof_text.v
theories/Proof_text2.v
theories/Proof_text3.v
theories/Proof_text4.v
theories/Proof_text5.v
theories/Proof_traj.v
theories/Proof_trajrun.v
theories/Proof_units.v
theories/Proof_units2.v
theories/Proof_units3.v
theories/Proof_valid.v
theories/Proof_volume.v
theories/Proof_warn.v
theories/Proof_warn2.v
theories/Proof_warn3.v
theories/Proof_well.v
theories/Proof_well2.v
theories/Proof_whole.v
theories/Proof_whole2.v
theories/Proof_whole3.v
theories/Proof_whole4.v
theories/Proof_whole5.v
theories/Proof_whole6.v
theories/Proof_whole7.v
theories/Prop_bd.v
theories/Prop_complete.v
theories/Prop_consist.v
theories/Prop_corr.v
theories/Prop_crowd.v
theories/Prop_debug.v
theories/Prop_diffusion.v
theories/Prop_drift.v
theories/Prop_drift2.v
theories/Prop_energy.v
theories/Prop_equil.v
theories/Prop_f64.v
theories/Prop_f64bd.v
theories/Prop_f64df.v
theories/Prop_f64events.v
theories/Prop_f64grid.v
theories/Prop_f64ld.v
theories/Prop_f64many.v
theories/Prop_f64mb.v
theories/Prop_f64sim.v
theories/Prop_f64step.v
theories/Prop_fes.v
theories/Prop_files.v
theories/Prop_forget.v
theories/Prop_grid.v
theories/Prop_heap.v
theories/Prop_hist.v
theories/Prop_indep.v
theories/Prop_ini.v
theories/Prop_input.v
theories/Prop_ld.v
theories/Prop_main.v
theories/Prop_newton.v
theories/Prop_params.v
theories/Prop_pdist.v
theories/Prop_pot.v
theories/Prop_repro.v
theories/Prop_setup.v
theories/Prop_smooth.v
theories/Prop_text.v
theories/Prop_traj.v
theories/Prop_units.v
theories/Prop_volume.v
theories/Prop_warn.v
theories/Prop_well.v
theories/Prop_whole.v
theories/PyBase.v
theories/Spec_bd.v
theories/Spec_bdrun.v
theories/Spec_box.v
theories/Spec_complete.v
theories/Spec_consist.v
theories/Spec_correction.v
theories/Spec_crowd.v
theories/Spec_debug.v
theories/Spec_diffusion.v
theories/Spec_drift.v
theories/Spec_drift2.v
theories/Spec_energy.v
theories/Spec_equil.v
theories/Spec_example.v
theories/Spec_examplerun.v
theories/Spec_f64.v
theories/Spec_f64bd.v
theories/Spec_f64df.v
theories/Spec_f64grid.v
theories/Spec_f64ld.v
theories/Spec_f64many.v
theories/Spec_f64mb.v
theories/Spec_f64sim.v
theories/Spec_f64step.v
theories/Spec_fes.v
theories/Spec_files.v
theories/Spec_forget.v
theories/Spec_grid.v
theories/Spec_gridops.v
theories/Spec_heap.v
theories/Spec_hist.v
theories/Spec_histact.v
theories/Spec_indep.v
theories/Spec_ini.v
theories/Spec_input.v
theories/Spec_ld.v
theories/Spec_main.v
theories/Spec_newton.v
theories/Spec_params.v
theories/Spec_pdist.v
theories/Spec_pot.v
theories/Spec_rec.v
theories/Spec_repro.v
theories/Spec_rng.v
theories/Spec_setup.v
theories/Spec_smooth.v
theories/Spec_text.v
theories/Spec_times.v
theories/Spec_traj.v
theories/Spec_trajrun.v
theories/Spec_units.v
theories/Spec_volume.v
theories/Spec_warn.v
theories/Spec_well.v
theories/Spec_whole.v

-Q theories Verif
theories/Np.v
theories/Lib.v
theories/S_gti.v
theories/M_gti.v
theories/P_gti_cross.v
theories/P_gti_ops.v
theories/P_gti_exposure.v
theories/P_gti_final.v
theories/T_gti.v
theories/S_seg.v
theories/M_seg.v
theories/P_seg_regions.v
theories/P_seg_cut.v
theories/P_seg_bins.v
theories/P_seg_split.v
theories/P_seg_mask.v
theories/P_seg_gen.v
theories/T_seg.v
theories/S_merge.v
theories/M_merge.v
theories/P_merge.v
theories/T_merge.v
theories/S_filters.v
theories/M_filters.v
theories/P_filters.v
theories/T_filters.v
theories/S_utils.v
theories/M_utils.v
theories/P_rebin.v
theories/P_rebin2.v
theories/P_hist.v
theories/P_logbin.v
theories/P_helpers.v
theories/T_utils.v
theories/S_lc.v
theories/M_lc.v
theories/P_lc_make.v
theories/P_lc_cache.v
theories/P_lc_join.v
theories/S_base.v
theories/M_base.v
theories/P_base.v
theories/P_base2.v
theories/P_base3.v
theories/P_base4.v
theories/P_lc_binned.v
theories/T_lc.v
theories/T_base.v
theories/Cplx.v
theories/M_fourier.v
theories/S_fourier.v
theories/P_dft.v
theories/P_norm.v
theories/P_avg.v
theories/P_avgcs.v
theories/P_spec.v
theories/P_self.v
theories/P_lag.v
theories/P_avg2.v
theories/P_cserr.v
theories/T_fourier.v
theories/M_power.v
theories/S_power.v
theories/P_power.v
theories/P_shift.v
theories/T_power.v
theories/M_stats.v
theories/S_stats.v
theories/P_stats.v
theories/P_pval.v
theories/T_stats.v
theories/M_zn.v
theories/S_zn.v
theories/P_zn.v
theories/T_zn.v
theories/M_fold.v
theories/S_fold.v
theories/P_fold.v
theories/P_expo.v
theories/P_fold2.v
theories/T_fold.v
theories/M_nextprod.v
theories/S_nextprod.v
theories/P_nextprod.v
theories/M_ols.v
theories/S_ols.v
theories/P_ols.v
theories/T_ols.v
theories/M_corr.v
theories/S_corr.v
theories/P_corr.v
theories/T_corr.v
theories/M_varen.v
theories/P_varen.v
theories/T_varen.v
theories/M_dyn.v
theories/S_dyn.v
theories/P_dyn.v
theories/M_dyn2.v
theories/P_dyn2.v
theories/T_dyn.v
theories/M_norm.v
theories/S_norm.v
theories/P_tonorm.v
theories/P_tonorm2.v
theories/T_tonorm.v
theories/M_io.v
theories/S_io.v
theories/P_io.v
theories/T_io.v
theories/M_espec.v
theories/S_espec.v
theories/P_espec.v
theories/T_espec.v
theories/M_flux.v
theories/S_flux.v
theories/P_flux.v
theories/P_flux2.v
theories/P_flux3.v
theories/P_flux4.v
theories/M_segan.v
theories/S_segan.v
theories/P_segan.v
theories/P_segan2.v
theories/P_segan3.v
theories/P_segan4.v
theories/P_segan5.v
theories/P_segan6.v
theories/T_flux.v
theories/T_segan.v
theories/M_pcolor.v
theories/S_pcolor.v
theories/P_pcolor.v
theories/P_pcolor2.v
theories/T_pcolor.v
theories/M_spec.v
theories/S_spec.v
theories/P_rms.v
theories/P_rms2.v
theories/P_rms3.v
theories/T_spec.v
theories/M_signif.v
theories/S_signif.v
theories/P_signif.v
theories/P_signif2.v
theories/P_signif3.v
theories/T_signif.v
theories/M_reader.v
theories/S_reader.v
theories/P_reader.v
theories/P_reader2.v
theories/P_reader3.v
theories/P_reader4.v
theories/T_reader.v
theories/M_window.v
theories/S_window.v
theories/P_window.v
theories/M_exvar.v
theories/S_exvar.v
theories/P_exvar.v
theories/T_window.v
theories/M_bispec.v
theories/S_bispec.v
theories/P_bispec.v
theories/P_bispec2.v
theories/P_bispec3.v
theories/T_bispec.v
theories/M_zhang.v
theories/S_zhang.v
theories/P_zhang.v
theories/P_zhang2.v
theories/P_zhang3.v
theories/P_stirling.v
theories/P_stirling2.v
theories/P_stirling3.v
theories/T_zhang.v
theories/M_posterior.v
theories/S_posterior.v
theories/P_posterior.v
theories/P_posterior2.v
theories/P_posterior3.v
theories/T_posterior.v
theories/M_parest.v
theories/S_parest.v
theories/P_parest.v
theories/P_parest2.v
theories/T_parest.v
theories/M_fad.v
theories/S_fad.v
theories/P_fad.v
theories/P_fad2.v
theories/P_fad3.v
theories/P_fad4.v
theories/P_fad5.v
theories/P_fad6.v
theories/T_fad.v
theories/M_mission.v
theories/S_mission.v
theories/S_mission2.v
theories/P_mission.v
theories/P_mission2.v
theories/P_mission3.v
theories/P_mission4.v
theories/P_mission5.v
theories/P_mission6.v
theories/T_mission.v
theories/M_search.v
theories/S_search.v
theories/S_search2.v
theories/P_search.v
theories/P_search2.v
theories/P_search3.v
theories/P_search4.v
theories/P_search5.v
theories/P_search6.v
theories/T_search.v
theories/M_covar.v
theories/S_covar.v
theories/P_covar.v
theories/P_covar2.v
theories/P_covar3.v
theories/P_covar4.v
theories/P_covar5.v
theories/P_covar6.v
theories/P_covar7.v
theories/T_covar.v
theories/M_sim.v
theories/S_sim.v
theories/P_sim.v
theories/P_sim2.v
theories/P_sim3.v
theories/P_sim4.v
theories/P_sim5.v
theories/T_sim.v
theories/M_timmer.v
theories/S_timmer.v
theories/P_timmer.v
theories/P_timmer2.v
theories/P_timmer3.v
theories/T_timmer.v
theories/M_vspec.v
theories/S_vspec.v
theories/P_vspec.v
theories/P_vspec2.v
theories/P_vspec3.v
theories/P_vspec4.v
theories/P_vspec5.v
theories/P_vspec6.v
theories/T_vspec.v
theories/M_lcops.v
theories/S_lcops.v
theories/P_lcops.v
theories/P_lcops2.v
theories/P_lcops3.v
theories/P_lcops4.v
theories/P_lcops5.v
theories/T_lcops.v
theories/M_make.v
theories/S_make.v
theories/P_make.v
theories/P_make2.v
theories/T_make.v
theories/M_dynobj.v
theories/S_dynobj.v
theories/P_dynobj.v
theories/T_dynobj.v
theories/P_vspec7.v
theories/T_vspec2.v
theories/M_mkcross.v
theories/S_mkcross.v
theories/P_mkcross.v
theories/P_mkcross2.v
theories/P_mkcross3.v
theories/T_mkcross.v
theories/T_mkcross2.v
theories/P_make3.v
theories/T_make2.v
theories/M_object.v
theories/S_object.v
theories/P_object.v
theories/P_object2.v
theories/T_object.v
theories/M_ls.v
theories/S_ls.v
theories/P_ls.v
theories/P_ls2.v
theories/P_ls3.v
theories/P_ls4.v
theories/P_ls5.v
theories/T_ls.v
theories/P_mkcross4.v
theories/T_mkcross3.v
theories/M_accel.v
theories/S_accel.v
theories/P_accel.v
theories/P_accel2.v
theories/P_accel3.v
theories/P_accel4.v
theories/T_accel.v
theories/M_fftfit.v
theories/S_fftfit.v
theories/P_fftfit.v
theories/P_fftfit2.v
theories/P_fftfit3.v
theories/P_fftfit4.v
theories/T_fftfit.v
theories/M_sinc.v
theories/S_sinc.v
theories/P_sinc.v
theories/T_sinc.v
theories/M_chi2.v
theories/S_chi2.v
theories/P_chi2.v
theories/P_chi22.v
theories/T_chi2.v
theories/M_qpo.v
theories/S_qpo.v
theories/P_qpo.v
theories/P_qpo2.v
theories/T_qpo.v
theories/M_bexvar.v
theories/S_bexvar.v
theories/P_bexvar.v
theories/P_bexvar2.v
theories/T_bexvar.v
theories/M_mtaper.v
theories/S_mtaper.v
theories/P_mtaper.v
theories/P_mtaper2.v
theories/P_mtaper3.v
theories/T_mtaper.v
theories/M_gp.v
theories/S_gp.v
theories/P_gp.v
theories/T_gp.v
theories/M_fitslc.v
theories/S_fitslc.v
theories/P_fitslc.v
theories/T_fitslc.v
theories/M_als.v
theories/S_als.v
theories/P_als.v
theories/P_als2.v
theories/P_als3.v
theories/T_als.v
theories/M_calib.v
theories/S_calib.v
theories/P_calib.v
theories/T_calib.v
theories/M_models.v
theories/S_models.v
theories/P_models.v
theories/T_models.v
theories/M_scripts.v
theories/S_scripts.v
theories/P_scripts.v
theories/T_scripts.v
theories/P_fitslc2.v
theories/T_fitslc2.v
theories/M_mask.v
theories/S_mask.v
theories/P_mask.v
theories/T_mask.v
theories/M_evload.v
theories/S_evload.v
theories/P_evload.v
theories/P_evload2.v
theories/T_evload.v
theories/M_zchk.v
theories/S_zchk.v
theories/P_zchk.v
theories/T_zchk.v
theories/M_rmscalc.v
theories/P_rmscalc.v
theories/T_rmscalc.v
theories/P_accel5.v
theories/T_accel5.v
theories/M_xarr.v
theories/M_pandas.v
theories/P_xarr.v
theories/P_pandas.v
theories/T_xarr.v
theories/P_gp3.v
theories/P_mtaper4.v
theories/T_gp3.v
theories/T_mtaper4.v
theories/M_lcchk.v
theories/S_lcchk.v
theories/P_lcchk.v
theories/T_lcchk.v
theories/M_init.v
theories/S_init.v
theories/P_init.v
theories/T_init.v
theories/M_orbit.v
theories/S_orbit.v
theories/P_orbit.v
theories/T_orbit.v
theories/M_lctab.v
theories/S_lctab.v
theories/P_lctab.v
theories/T_lctab.v
theories/M_rw.v
theories/S_rw.v
theories/P_rw.v
theories/T_rw.v
theories/M_getidx.v
theories/S_getidx.v
theories/P_getidx.v
theories/T_getidx.v
theories/M_specfilt.v
theories/S_specfilt.v
theories/P_specfilt.v
theories/T_specfilt.v
theories/M_meta.v
theories/S_meta.v
theories/P_meta.v
theories/T_meta.v
theories/S_bracket.v
theories/P_bracket.v
theories/T_bracket.v
theories/M_tseries.v
theories/S_tseries.v
theories/P_tseries.v
theories/T_tseries.v
theories/M_mtrebin.v
theories/S_mtrebin.v
theories/P_mtrebin.v
theories/T_mtrebin.v
theories/M_gpprior.v
theories/S_gpprior.v
theories/P_gpprior.v
theories/T_gpprior.v
theories/M_dyncross.v
theories/S_dyncross.v
theories/P_dyncross.v
theories/T_dyncross.v
theories/M_truncdt.v
theories/S_truncdt.v
theories/P_truncdt.v
theories/T_truncdt.v

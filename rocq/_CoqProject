-Q theories Verif
theories/Base.v
theories/L_agg.v
theories/L_agg2.v
theories/L_apply.v
theories/L_apply2.v
theories/L_assoc.v
theories/L_assoc2.v
theories/L_assoc3.v
theories/L_check.v
theories/L_checkinput.v
theories/L_choicegraph.v
theories/L_choicegraph2.v
theories/L_choicegraph3.v
theories/L_choicemap.v
theories/L_clean1.v
theories/L_clean2.v
theories/L_clean3.v
theories/L_clean4.v
theories/L_clean5.v
theories/L_clean6.v
theories/L_clean7.v
theories/L_clone.v
theories/L_clone2.v
theories/L_concatstep.v
theories/L_conflicts.v
theories/L_dataset.v
theories/L_dedup.v
theories/L_deferred.v
theories/L_deferred2.v
theories/L_describe.v
theories/L_describe2.v
theories/L_describe3.v
theories/L_dict.v
theories/L_dispatch.v
theories/L_dispatch2.v
theories/L_dropnulls.v
theories/L_dtencoder.v
theories/L_estimator1.v
theories/L_estimator2.v
theories/L_estimator3.v
theories/L_estimator4.v
theories/L_estimator5.v
theories/L_estimator6.v
theories/L_estimator7.v
theories/L_expr1.v
theories/L_expr2.v
theories/L_expr3.v
theories/L_expr4.v
theories/L_expr5.v
theories/L_expr6.v
theories/L_expr7.v
theories/L_exprtext.v
theories/L_fasthash.v
theories/L_figshare.v
theories/L_filters.v
theories/L_gap.v
theories/L_gap2.v
theories/L_gap3.v
theories/L_gap4.v
theories/L_gendup.v
theories/L_graph.v
theories/L_graph2.v
theories/L_graph3.v
theories/L_graph4.v
theories/L_grid.v
theories/L_grid2.v
theories/L_hist.v
theories/L_index.v
theories/L_interp.v
theories/L_joiner.v
theories/L_json.v
theories/L_ken.v
theories/L_kind.v
theories/L_kind2.v
theories/L_kind3.v
theories/L_labels.v
theories/L_leftjoin.v
theories/L_lru.v
theories/L_match.v
theories/L_matching.v
theories/L_minhash.v
theories/L_multiagg.v
theories/L_names.v
theories/L_namespace.v
theories/L_namespace2.v
theories/L_namespace3.v
theories/L_nullstr.v
theories/L_numeric.v
theories/L_numnames.v
theories/L_oncols.v
theories/L_pages.v
theories/L_pages2.v
theories/L_pages3.v
theories/L_pages4.v
theories/L_patching.v
theories/L_pickle1.v
theories/L_pickle2.v
theories/L_pickle3.v
theories/L_pickle4.v
theories/L_plotting.v
theories/L_refit.v
theories/L_reportio.v
theories/L_reseed.v
theories/L_reseed2.v
theories/L_results.v
theories/L_results2.v
theories/L_sampletable.v
theories/L_search1.v
theories/L_search2.v
theories/L_search3.v
theories/L_search4.v
theories/L_search5.v
theories/L_search6.v
theories/L_search7.v
theories/L_search8.v
theories/L_search9.v
theories/L_select.v
theories/L_seltypes.v
theories/L_similarity.v
theories/L_singlecol.v
theories/L_singlecol2.v
theories/L_staging.v
theories/L_staging2.v
theories/L_staging3.v
theories/L_staging4.v
theories/L_str.v
theories/L_strenc.v
theories/L_summary.v
theories/L_summary2.v
theories/L_tablegrid.v
theories/L_tablevec.v
theories/L_tablevec2.v
theories/L_tablevec3.v
theories/L_tablevec4.v
theories/L_tablevec5.v
theories/L_tabular1.v
theories/L_tabular2.v
theories/L_tabular3.v
theories/L_tabular4.v
theories/L_targets.v
theories/L_textenc.v
theories/L_todt.v
theories/L_traverse.v
theories/M_agg.v
theories/M_apply.v
theories/M_assoc.v
theories/M_check.v
theories/M_checkinput.v
theories/M_choicegraph.v
theories/M_choicemap.v
theories/M_clean.v
theories/M_clone.v
theories/M_concatstep.v
theories/M_dataset.v
theories/M_dedup.v
theories/M_deferred.v
theories/M_describe.v
theories/M_dispatch.v
theories/M_dropnulls.v
theories/M_dtencoder.v
theories/M_estimator.v
theories/M_expr.v
theories/M_exprtext.v
theories/M_fasthash.v
theories/M_figshare.v
theories/M_filters.v
theories/M_gap.v
theories/M_gendup.v
theories/M_graph.v
theories/M_grid.v
theories/M_hist.v
theories/M_index.v
theories/M_interp.v
theories/M_joiner.v
theories/M_json.v
theories/M_ken.v
theories/M_kind.v
theories/M_labels.v
theories/M_lru.v
theories/M_match.v
theories/M_matching.v
theories/M_multiagg.v
theories/M_names.v
theories/M_namespace.v
theories/M_nullstr.v
theories/M_numeric.v
theories/M_numnames.v
theories/M_oncols.v
theories/M_pages.v
theories/M_patching.v
theories/M_pickle.v
theories/M_plotting.v
theories/M_refit.v
theories/M_reportio.v
theories/M_results.v
theories/M_sampletable.v
theories/M_search.v
theories/M_select.v
theories/M_seltypes.v
theories/M_similarity.v
theories/M_singlecol.v
theories/M_staging.v
theories/M_str.v
theories/M_strenc.v
theories/M_summary.v
theories/M_tablegrid.v
theories/M_tablevec.v
theories/M_tabular.v
theories/M_textenc.v
theories/M_todt.v
theories/M_traverse.v
theories/P_agg.v
theories/P_apply.v
theories/P_assoc.v
theories/P_check.v
theories/P_checkinput.v
theories/P_choicegraph.v
theories/P_choicemap.v
theories/P_clean.v
theories/P_clone.v
theories/P_concatstep.v
theories/P_conflicts.v
theories/P_dataset.v
theories/P_dedup.v
theories/P_deferred.v
theories/P_describe.v
theories/P_dispatch.v
theories/P_dropnulls.v
theories/P_dtencoder.v
theories/P_estimator.v
theories/P_expr.v
theories/P_exprtext.v
theories/P_fasthash.v
theories/P_figshare.v
theories/P_filters.v
theories/P_gap.v
theories/P_gendup.v
theories/P_graph.v
theories/P_grid.v
theories/P_hist.v
theories/P_index.v
theories/P_interp.v
theories/P_joiner.v
theories/P_json.v
theories/P_ken.v
theories/P_kind.v
theories/P_labels.v
theories/P_lru.v
theories/P_match.v
theories/P_matching.v
theories/P_multiagg.v
theories/P_names.v
theories/P_namespace.v
theories/P_nullstr.v
theories/P_numeric.v
theories/P_numnames.v
theories/P_oncols.v
theories/P_pages.v
theories/P_patching.v
theories/P_pickle.v
theories/P_plotting.v
theories/P_refit.v
theories/P_reportio.v
theories/P_reseed.v
theories/P_results.v
theories/P_sampletable.v
theories/P_search.v
theories/P_select.v
theories/P_seltypes.v
theories/P_similarity.v
theories/P_singlecol.v
theories/P_staging.v
theories/P_strenc.v
theories/P_summary.v
theories/P_tablegrid.v
theories/P_tablevec.v
theories/P_tabular.v
theories/P_targets.v
theories/P_textenc.v
theories/P_todt.v

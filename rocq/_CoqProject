-Q theories Verif
theories/Num.v
theories/Py.v
theories/Model_element.v
theories/Model_helpers.v
theories/Model_actionset.v
theories/Proofs_num.v
theories/Spec_element.v
theories/Proofs_bounds.v
theories/Proofs_element.v
theories/Proofs_pct.v
theories/Proofs_values.v
theories/Proofs_props_element.v
theories/Props_element.v
theories/Spec_actionset.v
theories/Proofs_registry.v
theories/Proofs_actionset.v
theories/Proofs_props_actionset.v
theories/Props_actionset.v
theories/Model_mip.v
theories/Model_builder.v
theories/Spec_recourse.v
theories/Proofs_mip.v
theories/Proofs_info.v
theories/Proofs_vec.v
theories/Proofs_build.v
theories/Proofs_enum.v
theories/Proofs_session.v
theories/Proofs_recourse.v
theories/Proofs_subset.v
theories/Proofs_exchange.v
theories/Proofs_far.v
theories/Proofs_concrete.v
theories/Proofs_solver.v
theories/Proofs_builder.v
theories/Proofs_builder2.v
theories/Proofs_builder3.v
theories/Proofs_builder4.v
theories/Proofs_builder5.v
theories/Proofs_scen.v
theories/Proofs_scen2.v
theories/Proofs_assign.v
theories/Proofs_builder6.v
theories/Proofs_builder7.v
theories/Proofs_builder8.v
theories/Proofs_constrained.v
theories/Props_builder.v
theories/Model_flipset.v
theories/Spec_flipset.v
theories/Proofs_flipset.v
theories/Proofs_flipset2.v
theories/Proofs_flipset3.v
theories/Proofs_flipset4.v
theories/Proofs_flipset5.v
theories/Props_flipset.v
theories/Model_audit.v
theories/Spec_audit.v
theories/Proofs_audit.v
theories/Proofs_audit2.v
theories/Proofs_audit3.v
theories/Proofs_audit4.v
theories/Props_audit.v
theories/Proofs_assign2.v
theories/Proofs_assign3.v
theories/Props_assign.v
theories/Model_limits.v
theories/Spec_limits.v
theories/Proofs_limits.v
theories/Props_limits.v
theories/Model_names.v
theories/Spec_names.v
theories/Proofs_names.v
theories/Proofs_names2.v
theories/Props_names.v
theories/Model_report.v
theories/Spec_report.v
theories/Proofs_report.v
theories/Props_report.v
theories/Model_views.v
theories/Spec_views.v
theories/Proofs_views.v
theories/Proofs_views2.v
theories/Props_views.v
theories/Model_backend.v
theories/Spec_backend.v
theories/Proofs_backend.v
theories/Props_backend.v
theories/Model_cplex.v
theories/Spec_cplex.v
theories/Proofs_cplex.v
theories/Props_cplex.v
theories/Model_info.v
theories/Spec_info.v
theories/Proofs_dict.v
theories/Props_info.v
theories/Spec_compare.v
theories/Proofs_compare.v
theories/Proofs_compare2.v
theories/Proofs_compare3.v
theories/Proofs_compare4.v
theories/Proofs_compare5.v
theories/Props_compare.v
theories/Spec_tolerance.v
theories/Proofs_tol.v
theories/Proofs_tol2.v
theories/Proofs_tol3.v
theories/Proofs_tol4.v
theories/Proofs_tol5.v
theories/Proofs_tol6.v
theories/Props_tolerance.v
theories/Model_rounding.v
theories/Spec_rounding.v
theories/Proofs_round.v
theories/Model_float.v
theories/Proofs_float.v
theories/Proofs_float2.v
theories/Proofs_float3.v
theories/Proofs_float4.v
theories/Proofs_float5.v
theories/Proofs_float6.v
theories/Proofs_ieee.v
theories/Props_float.v
theories/Proofs_pareto.v
theories/Spec_widen.v
theories/Proofs_widen.v
theories/Props_widen.v
theories/Proofs_agree.v
theories/Proofs_again.v
theories/Props_agree.v
theories/Spec_runs.v
theories/Proofs_runs.v
theories/Props_runs.v
theories/Model_check.v
theories/Proofs_check.v
theories/Props_check.v
theories/Model_html.v
theories/Spec_html.v
theories/Proofs_html.v
theories/Props_html.v
theories/Model_stats.v
theories/Spec_stats.v
theories/Proofs_stats.v
theories/Props_stats.v
theories/Model_cplex2.v
theories/Spec_cplex2.v
theories/Proofs_cplex2.v
theories/Props_cplex2.v
theories/Model_scaling.v
theories/Spec_scaling.v
theories/Proofs_scaling.v
theories/Props_scaling.v
theories/Spec_minimal.v
theories/Proofs_minimal.v
theories/Props_minimal.v
theories/Spec_settings.v
theories/Proofs_settings.v
theories/Props_settings.v
theories/Spec_columns.v
theories/Proofs_columns.v
theories/Proofs_columns2.v
theories/Proofs_columns3.v
theories/Props_columns.v
theories/Proofs_exact.v
theories/Proofs_queries.v
theories/Proofs_binding.v
theories/Props_binding.v
theories/Proofs_columns4.v
theories/Spec_lineup.v
theories/Proofs_lineup.v
theories/Proofs_lineup2.v
theories/Props_lineup.v
theories/Proofs_check2.v
theories/Proofs_views3.v
theories/Proofs_lineup3.v
theories/Proofs_lineup4.v
theories/Spec_settable.v
theories/Proofs_assign4.v
theories/Proofs_assign5.v
theories/Proofs_float7.v
theories/Proofs_float8.v
theories/Proofs_tol7.v
theories/Proofs_tol8.v
theories/Proofs_tol9.v
theories/Proofs_tol10.v
theories/Proofs_setters.v
theories/Model_shared.v
theories/Spec_shared.v
theories/Proofs_shared.v
theories/Proofs_shared2.v
theories/Props_shared.v
theories/Proofs_settled.v
theories/Spec_idle.v
theories/Proofs_idle.v
theories/Proofs_idle2.v
theories/Proofs_idle3.v
theories/Props_idle.v
theories/Spec_list.v
theories/Proofs_list.v
theories/Proofs_list2.v
theories/Proofs_list3.v
theories/Props_list.v
theories/Model_pool.v
theories/Spec_pool.v
theories/Proofs_pool.v
theories/Proofs_pool2.v
theories/Proofs_pool3.v
theories/Props_pool.v
theories/Spec_grid.v
theories/Proofs_grid.v
theories/Props_grid.v
theories/Spec_cheaper.v
theories/Proofs_cheaper.v
theories/Proofs_cheaper2.v
theories/Props_cheaper.v
theories/Proofs_desire.v
theories/Spec_lenient.v
theories/Proofs_lenient.v
theories/Proofs_lenient2.v
theories/Props_lenient.v
theories/Spec_steps.v
theories/Proofs_steps.v
theories/Proofs_steps2.v
theories/Props_steps.v
theories/Spec_setup.v
theories/Proofs_setup.v
theories/Props_setup.v
theories/Spec_units.v
theories/Proofs_units.v
theories/Proofs_units2.v
theories/Proofs_units3.v
theories/Proofs_units4.v
theories/Props_units.v
theories/Spec_origin.v
theories/Proofs_origin.v
theories/Proofs_origin2.v
theories/Proofs_origin3.v
theories/Proofs_origin4.v
theories/Props_origin.v
theories/Model_flags.v
theories/Spec_flags.v
theories/Proofs_flags.v
theories/Props_flags.v
theories/Model_finite.v
theories/Spec_finite.v
theories/Proofs_finite.v
theories/Props_finite.v
theories/Spec_fewer.v
theories/Proofs_fewer.v
theories/Proofs_fewer2.v
theories/Proofs_fewer3.v
theories/Props_fewer.v
theories/Proofs_fewer4.v
theories/Proofs_fewer5.v
theories/Proofs_fewer6.v
theories/Proofs_stats2.v
theories/Proofs_limits2.v

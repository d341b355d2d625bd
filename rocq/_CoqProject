-Q theories Verif
theories/Prelude.v
theories/Num.v
theories/M_Dates.v
theories/S_Dates.v
theories/L_DatesSweep.v
theories/L_Dates.v
theories/P_Dates.v
theories/M_Search.v
theories/L_Search.v
theories/L_Num.v
theories/M_Calendar.v
theories/S_Calendar.v
theories/L_Calendar.v
theories/L_CalendarCount.v
theories/L_CalendarVol.v
theories/L_CalendarCases.v
theories/P_Calendar.v
theories/M_Interp.v
theories/S_Interp.v
theories/L_Interp.v
theories/L_Spline.v
theories/L_InterpCases.v
theories/P_Interp.v
theories/S_Math.v
theories/M_Brent.v
theories/L_Brent.v
theories/L_BrentEnds.v
theories/M_Black76.v
theories/L_Normal.v
theories/L_Black76.v
theories/L_MathCases.v
theories/P_Math.v
theories/M_Curves.v
theories/M_Fixings.v
theories/M_Forward.v
theories/S_Data.v
theories/L_Curves.v
theories/L_Fixings.v
theories/L_Forward.v
theories/L_ForwardTop.v
theories/L_DataCases.v
theories/L_Reach.v
theories/P_Data.v
theories/M_Vol.v
theories/S_Vol.v
theories/L_Vol.v
theories/L_VolTime.v
theories/L_VolPillars.v
theories/L_VolCases.v
theories/L_VolFollow.v
theories/L_VolBatch.v
theories/P_Vol.v
theories/M_Instruments.v
theories/M_Deps.v
theories/S_Instruments.v
theories/S_Deps.v
theories/L_Instruments.v
theories/L_Pricing.v
theories/L_PricingAny.v
theories/L_Deps.v
theories/L_InstrumentCases.v
theories/L_DepsPricing.v
theories/P_Instruments.v
theories/P_Deps.v
theories/M_Risk.v
theories/M_Reports.v
theories/S_Risk.v
theories/L_Risk.v
theories/L_Prefetch.v
theories/L_PrefetchTop.v
theories/L_RiskCases.v
theories/P_Risk.v
theories/S_Reports.v
theories/L_Reports.v
theories/L_SelfPricer.v
theories/L_SelfReports.v
theories/L_Compare.v
theories/L_ReportCases.v
theories/P_Reports.v
theories/M_MonteCarlo.v
theories/S_MonteCarlo.v
theories/L_Diffusion.v
theories/L_Models.v
theories/L_Paths.v
theories/L_MonteCarlo.v
theories/L_MonteCarloCases.v
theories/P_MonteCarlo.v
theories/M_Solver.v
theories/S_Solver.v
theories/L_Solver.v
theories/L_SolverAfter.v
theories/L_SolverCases.v
theories/P_Solver.v
theories/L_Areas.v
theories/L_AreasCases.v
theories/P_Areas.v
theories/M_Schema.v
theories/M_Serde.v
theories/S_Serde.v
theories/L_Serde.v
theories/M_Objects.v
theories/S_Objects.v
theories/L_Objects.v
theories/L_Market.v
theories/L_RoundTrip.v
theories/L_Once.v
theories/L_SerdeCases.v
theories/P_Serde.v
theories/M_Handles.v
theories/M_Facade.v
theories/S_Handles.v
theories/S_Facade.v
theories/L_Handles.v
theories/L_Facade.v
theories/L_HandlesCases.v
theories/P_Handles.v
theories/M_Runner.v
theories/S_Runner.v
theories/L_Runner.v
theories/L_RunnerCases.v
theories/P_Runner.v
theories/S_Read.v
theories/L_Read.v
theories/L_ReadObjects.v
theories/L_ReadMarket.v
theories/L_InterpNan.v
theories/L_ReadTop.v
theories/L_ReadCases.v
theories/P_Read.v
theories/L_Stateless.v
theories/S_EndToEnd.v
theories/L_EndToEnd.v
theories/L_EndToEndCases.v
theories/P_EndToEnd.v
theories/S_Double.v
theories/L_Double.v
theories/L_DoubleError.v
theories/L_InterpAny.v
theories/L_InterpDouble.v
theories/L_BrentDouble.v
theories/L_CalendarDouble.v
theories/S_CurveDouble.v
theories/L_CurveDouble.v
theories/S_BlackDouble.v
theories/L_BlackDouble.v
theories/P_Double.v
theories/S_Expectation.v
theories/L_Expectation.v
theories/L_Gauss.v
theories/L_Expected.v
theories/L_Unbiased.v
theories/L_BlackLimit.v
theories/L_BlackPrices.v
theories/L_ExpectationCases.v
theories/P_Expectation.v
theories/S_Displacement.v
theories/L_Displacement.v
theories/P_Displacement.v
theories/S_VolDouble.v
theories/L_VolDouble.v
theories/P_VolDouble.v
theories/L_PriceDouble.v
theories/L_ForwardDouble.v
theories/L_PriceDoubleCases.v
theories/P_PriceDouble.v
theories/S_SolverDouble.v
theories/L_BrentNan.v
theories/L_SolverDouble.v
theories/P_SolverDouble.v
theories/S_Options.v
theories/L_OptionNew.v
theories/P_Options.v
theories/L_CurveNew.v
theories/L_CurveNewDouble.v
theories/P_Curves.v
theories/S_Greeks.v
theories/L_ForwardAffine.v
theories/L_BlackGreeks.v
theories/L_Greeks.v
theories/L_GreeksCases.v
theories/L_Vega.v
theories/L_VegaCases.v
theories/P_Greeks.v
theories/L_Theta.v
theories/L_ThetaCases.v
theories/P_Theta.v
theories/S_Strikes.v
theories/L_Strikes.v
theories/L_StrikeCases.v
theories/P_Strikes.v
theories/S_Starting.v
theories/L_StartGreeks.v
theories/L_StartTheta.v
theories/L_StartDouble.v
theories/L_StartCases.v
theories/P_Starting.v
theories/M_Machine.v
theories/S_Machine.v
theories/L_Machine.v
theories/P_Machine.v
theories/S_Implied.v
theories/L_Implied.v
theories/L_ImpliedCases.v
theories/P_Implied.v
theories/S_Portfolio.v
theories/L_Portfolio.v
theories/L_PortfolioPrices.v
theories/L_PortfolioRisk.v
theories/L_PortfolioReports.v
theories/L_PortfolioCases.v
theories/P_Portfolio.v
theories/S_McGreeks.v
theories/L_McGreeks.v
theories/L_McExpected.v
theories/L_McGreeksCases.v
theories/P_McGreeks.v
theories/S_Compare.v
theories/L_CompareDouble.v
theories/P_Compare.v
theories/S_SumDouble.v
theories/L_SumDouble.v
theories/L_MeanDouble.v
theories/L_MeanDoubleCases.v
theories/P_SumDouble.v
theories/S_PathDouble.v
theories/L_PathDouble.v
theories/L_PathPrice.v
theories/L_PathDoubleCases.v
theories/P_PathDouble.v
theories/S_DividendDouble.v
theories/L_DividendDouble.v
theories/L_DividendCases.v
theories/P_DividendDouble.v
theories/L_DividendOption.v
theories/P_DividendOption.v
theories/S_GreekDouble.v
theories/L_GreekDouble.v
theories/L_GreekDoubleCases.v
theories/P_GreekDouble.v

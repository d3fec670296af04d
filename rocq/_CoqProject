-Q theories Verif
theories/M_Accounts.v
theories/M_Business.v
theories/M_Chem.v
theories/M_Coals.v
theories/M_Csv.v
theories/M_Custom.v
theories/M_Data.v
theories/M_Data_Fluids.v
theories/M_Data_Measured.v
theories/M_Data_Nist.v
theories/M_Data_Rao.v
theories/M_Dates.v
theories/M_Elements.v
theories/M_Factsage.v
theories/M_Float.v
theories/M_FloatCompare.v
theories/M_FloatLoan.v
theories/M_FloatMix.v
theories/M_FloatPoly.v
theories/M_FloatReports.v
theories/M_FloatStoich.v
theories/M_FloatTransport.v
theories/M_Fluids.v
theories/M_GlsReport.v
theories/M_Heap.v
theories/M_HeapChem.v
theories/M_HeapPsd.v
theories/M_HeapSlurry.v
theories/M_HeapStreams.v
theories/M_HeapThermo.v
theories/M_Ieee.v
theories/M_Interrupt.v
theories/M_Json.v
theories/M_JsonFiles.v
theories/M_Latex.v
theories/M_Ledger.v
theories/M_Listing.v
theories/M_Lists.v
theories/M_Model.v
theories/M_Physical.v
theories/M_Polyfit.v
theories/M_Print.v
theories/M_Psd.v
theories/M_Render.v
theories/M_Shared.v
theories/M_Shipped.v
theories/M_Slurry.v
theories/M_Stoichiometry.v
theories/M_Streams.v
theories/M_Strptime.v
theories/M_Tables.v
theories/M_Tabulate.v
theories/M_Text.v
theories/M_ThermoMat.v
theories/M_Thermochem.v
theories/M_Transport.v
theories/P_Accounts.v
theories/P_Business.v
theories/P_Business2.v
theories/P_Chem.v
theories/P_Close.v
theories/P_CoalStream.v
theories/P_Coals.v
theories/P_Content.v
theories/P_Convection.v
theories/P_Convert.v
theories/P_Count.v
theories/P_Csv.v
theories/P_Data.v
theories/P_Dates.v
theories/P_Draw.v
theories/P_Draw2.v
theories/P_Draw3.v
theories/P_Draw4.v
theories/P_Draw5.v
theories/P_Factsage.v
theories/P_Failures.v
theories/P_Failures2.v
theories/P_File.v
theories/P_Fit.v
theories/P_Float.v
theories/P_FloatGas.v
theories/P_FloatLoan.v
theories/P_FloatLoan2.v
theories/P_FloatLoan3.v
theories/P_FloatMix.v
theories/P_FloatPoly.v
theories/P_FloatPoly2.v
theories/P_FloatPoly3.v
theories/P_FloatReports.v
theories/P_FloatReports2.v
theories/P_FloatStoich.v
theories/P_FloatStoich2.v
theories/P_FloatStoich3.v
theories/P_FloatStoich4.v
theories/P_FloatStoich5.v
theories/P_FloatStoich6.v
theories/P_FloatTransport.v
theories/P_FloatTransport2.v
theories/P_FloatTransport3.v
theories/P_FloatTransport4.v
theories/P_FloatTransport5.v
theories/P_FloatTransport6.v
theories/P_Fluids.v
theories/P_General.v
theories/P_GlsReport.v
theories/P_Heap.v
theories/P_HeapChem.v
theories/P_HeapPsd.v
theories/P_HeapSlurry.v
theories/P_HeapStreams.v
theories/P_HeapThermo.v
theories/P_Ieee.v
theories/P_Interrupt.v
theories/P_Interrupt2.v
theories/P_Interrupt3.v
theories/P_Json.v
theories/P_Json2.v
theories/P_Json3.v
theories/P_Json4.v
theories/P_JsonFiles.v
theories/P_JsonFiles2.v
theories/P_Latex.v
theories/P_Latex2.v
theories/P_Ledger.v
theories/P_Listing.v
theories/P_Loan.v
theories/P_Magnetic.v
theories/P_MisuseChem.v
theories/P_MisusePsd.v
theories/P_MisuseSlurry.v
theories/P_MisuseThermo.v
theories/P_Mixing.v
theories/P_Model.v
theories/P_Physical.v
theories/P_Poly.v
theories/P_PolyZ.v
theories/P_Polyfit.v
theories/P_Pressure.v
theories/P_Print.v
theories/P_Print2.v
theories/P_Print3.v
theories/P_Print4.v
theories/P_Psd.v
theories/P_Reports.v
theories/P_Run.v
theories/P_Secant.v
theories/P_Shared.v
theories/P_Shared2.v
theories/P_Shipped.v
theories/P_Slag.v
theories/P_Slurry.v
theories/P_Special.v
theories/P_Stoich.v
theories/P_Streams.v
theories/P_Strptime.v
theories/P_Structure.v
theories/P_Table.v
theories/P_Tables.v
theories/P_Tabulate.v
theories/P_Text.v
theories/P_Thermo.v
theories/P_ThermoApi.v
theories/P_ThermoElem.v
theories/P_ThermoMat.v
theories/P_ThermoMore.v
theories/P_Transport.v
theories/P_Water.v
theories/P_Wilke.v
theories/P_Within.v
theories/P_Year.v
theories/Prelude.v
theories/Properties_Accounts.v
theories/Properties_Aligned.v
theories/Properties_Amounts.v
theories/Properties_Assays.v
theories/Properties_Business.v
theories/Properties_Business2.v
theories/Properties_Chem.v
theories/Properties_CoalStream.v
theories/Properties_Coals.v
theories/Properties_Csv.v
theories/Properties_Custom.v
theories/Properties_Dates2.v
theories/Properties_Draw.v
theories/Properties_Factsage.v
theories/Properties_Failures.v
theories/Properties_File.v
theories/Properties_Fit.v
theories/Properties_Float.v
theories/Properties_FloatLoan.v
theories/Properties_FloatPoly.v
theories/Properties_FloatStoich.v
theories/Properties_FloatTransport.v
theories/Properties_Fluids.v
theories/Properties_GlsReport.v
theories/Properties_HeapChem.v
theories/Properties_HeapPsd.v
theories/Properties_HeapSlurry.v
theories/Properties_HeapStreams.v
theories/Properties_HeapThermo.v
theories/Properties_Interrupt.v
theories/Properties_Json.v
theories/Properties_Latex.v
theories/Properties_Ledger.v
theories/Properties_Listing.v
theories/Properties_Materials.v
theories/Properties_Misuse.v
theories/Properties_MisuseThermo.v
theories/Properties_Model.v
theories/Properties_Physical.v
theories/Properties_Polyfit.v
theories/Properties_Print.v
theories/Properties_Print2.v
theories/Properties_Print3.v
theories/Properties_Print4.v
theories/Properties_Psd.v
theories/Properties_Render.v
theories/Properties_Shared.v
theories/Properties_Shipped.v
theories/Properties_Slag.v
theories/Properties_SlagMass.v
theories/Properties_Slurry.v
theories/Properties_Special.v
theories/Properties_Stoich.v
theories/Properties_Streams.v
theories/Properties_Structure.v
theories/Properties_Tables.v
theories/Properties_Thermo.v
theories/Properties_ThermoMat.v
theories/Properties_Time.v
theories/Properties_Transport.v
theories/Spec_Accounts.v
theories/Spec_Business.v
theories/Spec_Business2.v
theories/Spec_Chem.v
theories/Spec_Coals.v
theories/Spec_Csv.v
theories/Spec_Dates.v
theories/Spec_Dates2.v
theories/Spec_Factsage.v
theories/Spec_Failures.v
theories/Spec_File.v
theories/Spec_Fit.v
theories/Spec_FloatLoan.v
theories/Spec_FloatMix.v
theories/Spec_FloatPoly.v
theories/Spec_FloatReports.v
theories/Spec_FloatStoich.v
theories/Spec_FloatTransport.v
theories/Spec_GlsReport.v
theories/Spec_Heap.v
theories/Spec_Ieee.v
theories/Spec_Interrupt.v
theories/Spec_Json.v
theories/Spec_JsonFiles.v
theories/Spec_Latex.v
theories/Spec_Ledger.v
theories/Spec_Listing.v
theories/Spec_Loan.v
theories/Spec_Material.v
theories/Spec_MisuseChem.v
theories/Spec_MisusePsd.v
theories/Spec_MisuseSlurry.v
theories/Spec_MisuseThermo.v
theories/Spec_Model.v
theories/Spec_Physical.v
theories/Spec_Polyfit.v
theories/Spec_Print.v
theories/Spec_Psd.v
theories/Spec_Secant.v
theories/Spec_Shared.v
theories/Spec_Shipped.v
theories/Spec_Slurry.v
theories/Spec_Special.v
theories/Spec_Stoich.v
theories/Spec_Streams.v
theories/Spec_Structure.v
theories/Spec_Tables.v
theories/Spec_Tabulate.v
theories/Spec_Text.v
theories/Spec_Thermo.v
theories/Spec_ThermoMat.v
theories/Spec_Transport.v

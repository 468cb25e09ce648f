-Q theories Verif
theories/Base.v
theories/Uniq.v
theories/Constraints.v
theories/Guidelines.v
theories/SpecGuidelines.v
theories/GuidelinesProofs.v
theories/ConstraintsProofs.v
theories/GateProofs.v
theories/Properties_guidelines.v
theories/Divers.v
theories/DiversProofs.v
theories/Properties_divers.v
theories/Spacing.v
theories/SpacingProofs.v
theories/Properties_spacing.v
theories/Strip.v
theories/StripProofs.v
theories/StripGraph.v
theories/StripWeights.v
theories/Properties_strip.v
theories/Format.v
theories/FormatProofs.v
theories/Properties_format.v
theories/PdlTools.v
theories/PdlToolsProofs.v
theories/Properties_pdltools.v
theories/Divide.v
theories/DivideProofs.v
theories/Properties_divide.v
theories/Moments.v
theories/MomentsProofs.v
theories/Properties_moments.v
theories/Search.v
theories/SearchProofs.v
theories/Properties_search.v
theories/Objectives.v
theories/ObjectivesProofs.v
theories/Properties_objectives.v
theories/PdlGroup.v
theories/PdlGroupProofs.v
theories/Properties_pdlgroup.v
theories/PdlIni.v
theories/PdlIniProofs.v
theories/Properties_pdlini.v
theories/GroupFilters.v
theories/GroupFiltersProofs.v
theories/Properties_filters.v
theories/Pruning.v
theories/PruningProofs.v
theories/Properties_pruning.v
theories/Beam.v
theories/BeamProofs.v
theories/Properties_beam.v
theories/Repair10.v
theories/Repair10Proofs.v
theories/Properties_repair10.v
theories/RepairDiso.v
theories/RepairDisoProofs.v
theories/Properties_repairdiso.v
theories/Membrane.v
theories/MembraneProofs.v
theories/Properties_membrane.v
theories/Flexural.v
theories/FlexuralProofs.v
theories/FlexuralSwap.v
theories/Properties_flexural.v
theories/SpecRedesign.v
theories/Redesign.v
theories/RedesignProofs.v
theories/RedesignThick.v
theories/Properties_redesign.v
theories/Abdalla10.v
theories/AbdallaProofs.v
theories/Properties_abdalla10.v
theories/RepairMp.v
theories/RepairMpProofs.v
theories/Properties_repairmp.v
theories/Panel.v
theories/PanelProofs.v
theories/Properties_panel.v
theories/Stiffness.v
theories/StiffnessProofs.v
theories/Properties_stiffness.v
theories/Properties_ortho.v
theories/RepairSs.v
theories/Properties_repairss.v
theories/Final.v
theories/Properties_final.v
theories/SubsetSum.v
theories/Properties_subset.v
theories/Inputs.v
theories/Properties_inputs.v
theories/Layla.v
theories/Properties_layla.v
theories/Properties_layla2.v
theories/LaylaSearch.v
theories/Properties_laylaprune.v
theories/Properties_laylabeam.v
theories/Properties_laylaouter.v
theories/LampamBound.v
theories/Levels.v
theories/Properties_levels.v
theories/Pipeline.v
theories/Properties_pipeline.v
theories/Properties_guide.v
theories/Properties_leaf.v
theories/Counters.v
theories/Properties_counters.v
theories/Properties_counters2.v
theories/Structure.v
theories/Properties_structure.v
theories/SwapD.v
theories/Properties_swap.v
theories/PlyCounts.v
theories/Properties_plycounts.v
theories/LaylaInputs.v
theories/Properties_laylainputs.v
theories/LaylaRun.v
theories/Properties_laylarun.v
theories/Saved.v
theories/Properties_saved.v
theories/Properties_savedrows.v
theories/Properties_savedcells.v
theories/SavedSetup.v
theories/Properties_savedsetup.v
theories/ExternalTable.v
theories/Properties_external.v
theories/RedesignRunsProofs.v
theories/Properties_redesignruns.v
theories/Properties_tight.v
theories/Properties_flexouter.v
theories/SavedParams.v
theories/Properties_savedparams.v
theories/Properties_givencells.v
theories/LaylaBroken.v
theories/Properties_laylabroken.v
theories/Properties_pdlmiddle.v
theories/Properties_beamlimits.v
theories/Properties_finalreturns.v
theories/Properties_repairreturns.v
theories/Properties_layoutreturns.v
theories/Properties_searchreturns.v
theories/Properties_searchfinds.v

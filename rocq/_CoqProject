-Q theories Verif
theories/AcisText_Model.v
theories/AcisText_Proofs.v
theories/AcisText_Props.v
theories/Align_Model.v
theories/Align_Proofs.v
theories/Align_Props.v
theories/Analysis_Model.v
theories/Analysis_Proofs.v
theories/Analysis_Proofs2.v
theories/Analysis_Props.v
theories/Angles_Model.v
theories/Angles_Proofs.v
theories/Angles_Props.v
theories/Aperture_Model.v
theories/Aperture_Proofs.v
theories/Aperture_Props.v
theories/ArcusArf_Model.v
theories/ArcusArf_Proofs.v
theories/ArcusArf_Props.v
theories/ArcusSpo_Model.v
theories/ArcusSpo_Proofs.v
theories/ArcusSpo_Props.v
theories/Arcus_Model.v
theories/Arcus_Proofs.v
theories/Arcus_Props.v
theories/Area_Model.v
theories/Area_Proofs.v
theories/Area_Props.v
theories/Assembly_Model.v
theories/Assembly_Proofs.v
theories/Assembly_Props.v
theories/Axis_Model.v
theories/Axis_Proofs.v
theories/Axis_Props.v
theories/Base.v
theories/Base_Proofs.v
theories/Bend_Model.v
theories/Bend_Proofs.v
theories/Bend_Props.v
theories/Brewster_Model.v
theories/Brewster_Proofs.v
theories/Brewster_Props.v
theories/CatStack_Model.v
theories/CatStack_Proofs.v
theories/CatStack_Props.v
theories/Ccd_Model.v
theories/Ccd_Proofs.v
theories/Ccd_Props.v
theories/Chain_Model.v
theories/Chain_Proofs.v
theories/Chain_Props.v
theories/Chandra_Model.v
theories/Chandra_Proofs.v
theories/Chandra_Props.v
theories/Coating_Model.v
theories/Coating_Proofs.v
theories/Coating_Props.v
theories/Container_Model.v
theories/Container_Proofs.v
theories/Container_Props.v
theories/Coords_Model.v
theories/Coords_Proofs.v
theories/Coords_Props.v
theories/Cylinder_Model.v
theories/Cylinder_Proofs.v
theories/Cylinder_Props.v
theories/Defocus_Model.v
theories/Defocus_Proofs.v
theories/Defocus_Props.v
theories/Detector_Model.v
theories/Detector_Proofs.v
theories/Detector_Props.v
theories/Eff_Model.v
theories/Eff_Proofs.v
theories/Eff_Props.v
theories/Fits_Model.v
theories/Fits_Proofs.v
theories/Fits_Props.v
theories/Focus_Model.v
theories/Focus_Proofs.v
theories/Focus_Props.v
theories/Fold_Model.v
theories/Fold_Proofs.v
theories/Fold_Props.v
theories/Grating_Model.v
theories/Grating_Proofs.v
theories/Grating_Props.v
theories/Grid_Model.v
theories/Grid_Proofs.v
theories/Grid_Props.v
theories/Hetg_Model.v
theories/Hetg_Proofs.v
theories/Hetg_Props.v
theories/Instrument_Model.v
theories/Instrument_Proofs.v
theories/Instrument_Proofs2.v
theories/Instrument_Props.v
theories/Layers_Model.v
theories/Layers_Proofs.v
theories/Layers_Props.v
theories/Lens_Model.v
theories/Lens_Proofs.v
theories/Lens_Props.v
theories/Lsf_Model.v
theories/Lsf_Proofs.v
theories/Lsf_Props.v
theories/Lynx_Model.v
theories/Lynx_Proofs.v
theories/Lynx_Props.v
theories/MarxC_Model.v
theories/MarxC_Proofs.v
theories/MarxC_Props.v
theories/Marx_Model.v
theories/Marx_Proofs.v
theories/Marx_Props.v
theories/Meta_Model.v
theories/Meta_Proofs.v
theories/Meta_Props.v
theories/Mirrors_Model.v
theories/Mirrors_Proofs.v
theories/Mirrors_Props.v
theories/Mission_Model.v
theories/Mission_Proofs.v
theories/Mission_Props.v
theories/Mosaic_Model.v
theories/Mosaic_Proofs.v
theories/Mosaic_Props.v
theories/Observe_Model.v
theories/Observe_Proofs.v
theories/Observe_Props.v
theories/Ogip_Model.v
theories/Ogip_Proofs.v
theories/Ogip_Props.v
theories/Origin_Model.v
theories/Origin_Proofs.v
theories/Origin_Props.v
theories/Osip_Model.v
theories/Osip_Proofs.v
theories/Osip_Props.v
theories/Overlap_Model.v
theories/Overlap_Proofs.v
theories/Overlap_Props.v
theories/PerPhoton_Model.v
theories/PerPhoton_Proofs.v
theories/PerPhoton_Props.v
theories/Photons_Model.v
theories/Photons_Proofs.v
theories/Photons_Proofs2.v
theories/Photons_Proofs3.v
theories/Photons_Proofs4.v
theories/Photons_Proofs5.v
theories/Photons_Props.v
theories/Picture_Model.v
theories/Picture_Proofs.v
theories/Picture_Props.v
theories/Placement_Model.v
theories/Placement_Proofs.v
theories/Placement_Props.v
theories/Plane_Model.v
theories/Plane_Proofs.v
theories/Plane_Props.v
theories/Poisson_Model.v
theories/Poisson_Proofs.v
theories/Poisson_Props.v
theories/Position_Model.v
theories/Position_Proofs.v
theories/Position_Props.v
theories/Qmatrix_Model.v
theories/Qmatrix_Proofs.v
theories/Qmatrix_Props.v
theories/RayGrid_Model.v
theories/RayGrid_Proofs.v
theories/RayGrid_Proofs2.v
theories/RayGrid_Props.v
theories/Report_Model.v
theories/Report_Proofs.v
theories/Report_Props.v
theories/Rmf_Model.v
theories/Rmf_Proofs.v
theories/Rmf_Proofs2.v
theories/Rmf_Props.v
theories/Rod_Props.v
theories/Rot_Model.v
theories/Rot_Proofs.v
theories/Rot_Props.v
theories/Rowland_Model.v
theories/Rowland_Proofs.v
theories/Rowland_Proofs2.v
theories/Rowland_Props.v
theories/Ruling_Model.v
theories/Ruling_Proofs.v
theories/Ruling_Props.v
theories/Sampling_Model.v
theories/Sampling_Proofs.v
theories/Sampling_Props.v
theories/Scatter_Model.v
theories/Scatter_Proofs.v
theories/Scatter_Props.v
theories/Scene_Model.v
theories/Scene_Proofs.v
theories/Scene_Props.v
theories/Screen_Model.v
theories/Screen_Proofs.v
theories/Screen_Props.v
theories/Setup_Model.v
theories/Setup_Proofs.v
theories/Setup_Props.v
theories/Shape_Model.v
theories/Shape_Proofs.v
theories/Shape_Props.v
theories/Shared_Model.v
theories/Shared_Proofs.v
theories/Shared_Props.v
theories/Source_Model.v
theories/Source_Proofs.v
theories/Source_Props.v
theories/Spectro_Model.v
theories/Spectro_Proofs.v
theories/Spectro_Props.v
theories/Stop_Model.v
theories/Stop_Proofs.v
theories/Stop_Props.v
theories/Stretch_Proofs.v
theories/Stretch_Props.v
theories/Telescope_Model.v
theories/Telescope_Proofs.v
theories/Telescope_Props.v
theories/Tilt_Model.v
theories/Tilt_Proofs.v
theories/Tilt_Props.v
theories/Tol_Model.v
theories/Tol_Proofs.v
theories/Tol_Props.v
theories/Tube_Proofs.v
theories/Tube_Props.v
theories/Vec_Model.v
theories/Vec_Proofs.v
theories/Version_Model.v
theories/Version_Proofs.v
theories/Version_Props.v
theories/Viz_Model.v
theories/Viz_Proofs.v
theories/Viz_Props.v
theories/Whole_Model.v
theories/Whole_Proofs.v
theories/Whole_Proofs2.v
theories/Whole_Props.v
theories/Width_Model.v
theories/Width_Proofs.v
theories/Width_Props.v
theories/Wiggle_Model.v
theories/Wiggle_Proofs.v
theories/Wiggle_Props.v
theories/Zero_Model.v
theories/Zero_Proofs.v
theories/Zero_Props.v

-Q theories Verif
theories/Base.v
theories/BaseLemmas.v
theories/XReal.v
theories/HelpersModel.v
theories/RayModel.v
theories/HelpersSpec.v
theories/BresenhamProofs.v
theories/SplitProofs.v
theories/NearestProofs.v
theories/BoxProofs.v
theories/AggregateProofs.v
theories/RayProofs.v
theories/ClipProofs.v
theories/P_Helpers.v
theories/CameraModel.v
theories/CameraSpec.v
theories/CameraStateProofs.v
theories/CameraProofs.v
theories/CameraProofs2.v
theories/CameraProofs3.v
theories/CameraProofs4.v
theories/CameraHeap.v
theories/P_Camera.v
theories/GridModel.v
theories/GridSpec.v
theories/GridProofs.v
theories/GridProofs2.v
theories/TileProofs.v
theories/P_Grid.v
theories/RasterModel.v
theories/RasterSpec.v
theories/RasterProofs.v
theories/RasterProofs2.v
theories/RasterProofs3.v
theories/RasterProofs4.v
theories/RasterProofs5.v
theories/RasterProofs6.v
theories/RasterProofs7.v
theories/P_Raster.v
theories/InterpModel.v
theories/InterpSpec.v
theories/InterpProofs.v
theories/P_Interp.v
theories/ViewModel.v
theories/ViewSpec.v
theories/ViewProofs.v
theories/ViewProofs2.v
theories/ViewProofs3.v
theories/P_View.v
theories/ResampleModel.v
theories/ResampleSpec.v
theories/ResampleProofs.v
theories/ResampleProofs2.v
theories/ResampleProofs3.v
theories/ResampleProofs4.v
theories/P_Resample.v
theories/TimeModel.v
theories/TimeSpec.v
theories/TimeProofs.v
theories/TimeProofs2.v
theories/P_Time.v
theories/TrackModel.v
theories/TrackSpec.v
theories/TrackProofs.v
theories/TrackProofs2.v
theories/P_Track.v
theories/MotionModel.v
theories/MotionSpec.v
theories/MotionProofs.v
theories/MotionProofs2.v
theories/P_Motion.v
theories/TemplateModel.v
theories/TemplateSpec.v
theories/TemplateProofs.v
theories/TemplateProofs2.v
theories/P_Template.v
theories/TracksModel.v
theories/P_Tracks.v
theories/P_Camera2.v
theories/ImageModel.v
theories/ImageSpec.v
theories/ImageProofs.v
theories/P_Image.v
theories/ParamsModel.v
theories/ParamsSpec.v
theories/ParamsProofs.v
theories/ParamsProofs2.v
theories/ParamsProofs3.v
theories/P_Params.v
theories/ConvertModel.v
theories/ConvertProofs.v
theories/ConvertProofs2.v
theories/P_Convert.v
theories/P_Convert2.v
theories/TrackProofs3.v
theories/P_Track2.v
theories/RansacModel.v
theories/P_Ransac.v
theories/P_Ransac2.v
theories/MatcherModel.v
theories/P_Matcher.v
theories/MatcherProofs.v
theories/P_Matcher2.v
theories/P_Matcher3.v
theories/P_Matcher4.v
theories/SvgModel.v
theories/SvgProofs.v
theories/P_Svg.v
theories/P_SvgPath.v
theories/P_Svg2.v
theories/P_Svg3.v
theories/ControlModel.v
theories/P_Control.v
theories/P_Control2.v
theories/P_Control3.v
theories/ProjectModel.v
theories/P_Project.v
theories/ExifModel.v
theories/P_Exif.v
theories/P_Ray2.v
theories/P_Clip.v
theories/P_Datetimes.v
theories/P_Camera3.v
theories/P_Grid2.v
theories/P_Grid3.v
theories/P_Raster3.v
theories/P_Raster4.v
theories/P_Residual.v
theories/P_Track3.v
theories/P_Params2.v
theories/P_Convert3.v
theories/CircleModel.v
theories/CircleProofs.v
theories/P_Circle.v
theories/LineModel.v
theories/LineSpec.v
theories/LineProofs.v
theories/P_Line.v
theories/TileModel.v
theories/P_Tile.v
theories/FilterModel.v
theories/P_Filter.v
theories/BuildModel.v
theories/BuildProofs.v
theories/P_Build.v
theories/P_Params3.v
theories/CameraJsonModel.v
theories/CameraJsonProofs.v
theories/P_CameraJson.v
theories/GetitemModel.v
theories/P_Getitem.v
theories/DemModel.v
theories/DemProofs.v
theories/P_Dem.v
theories/P_Dem2.v
theories/ReversibleModel.v
theories/P_Reversible.v
theories/HorizonModel.v
theories/HorizonSpec.v
theories/HorizonProofs.v
theories/HorizonProofs2.v
theories/P_Horizon.v
theories/RasterFileModel.v
theories/RasterFileProofs.v
theories/P_RasterFile.v
theories/GradientModel.v
theories/P_Gradient.v
theories/OrientModel.v
theories/OrientProofs.v
theories/OrientProofs2.v
theories/P_Orient.v
theories/FitModel.v
theories/P_Fit.v
theories/GridSampleModel.v
theories/GridSampleProofs.v
theories/GridSampleProofs2.v
theories/P_GridSample.v
theories/RasterizeModel.v
theories/P_Rasterize.v
theories/PathModel.v
theories/P_Path.v
theories/WriteModel.v
theories/P_Write.v
theories/EqModel.v
theories/P_Eq.v
theories/SvgDocModel.v
theories/SvgDocProofs.v
theories/P_SvgDoc.v
theories/P_SvgDoc2.v
theories/FlatJsonModel.v
theories/FlatJsonProofs.v
theories/P_FlatJson.v
theories/ScalesModel.v
theories/P_Scales.v
theories/PoolModel.v
theories/PoolProofs.v
theories/MatchPoolProofs.v
theories/P_Pool.v
theories/P_Pool2.v
theories/CalibModel.v
theories/RegexProofs.v
theories/P_CalibXml.v
theories/P_CalibXml2.v
theories/CalibMatlabProofs.v
theories/P_CalibMatlab.v
theories/CalibPmProofs.v
theories/P_CalibPm.v
theories/ResizeModel.v
theories/P_Resize.v
theories/MeshModel.v
theories/P_Mesh.v
theories/LinesModel.v
theories/LinesProofs.v
theories/LinesProofs2.v
theories/P_Lines.v
theories/ObserverModel.v
theories/ObserverSpec.v
theories/ObserverProofs.v
theories/ObserverProofs2.v
theories/ObserverProofs3.v
theories/P_Observer.v
theories/P_Observer2.v
theories/P_Observer3.v
theories/P_ScalesMean.v
theories/OuluProofs.v
theories/P_Oulu.v
theories/ZoneModel.v
theories/P_Zone.v
theories/AnimateModel.v
theories/P_Animate.v
theories/P_Edges.v
theories/TracksAnimateModel.v
theories/P_TracksAnimate.v
theories/DetectModel.v
theories/P_Detect.v
theories/PlotModel.v
theories/P_Plot.v
theories/TracksPlotModel.v
theories/P_TracksPlot.v
theories/TrackOutModel.v
theories/P_TrackOut.v
theories/ShareModel.v
theories/ShareProofs.v
theories/ShareProofs2.v
theories/ShareProofs3.v
theories/P_Share.v
theories/P_Share2.v
theories/P_Share3.v
theories/P_Share4.v
theories/ShareProofs4.v
theories/MatrixModel.v
theories/P_Matrix.v
theories/FilesModel.v
theories/FilesProofs.v
theories/P_Files.v
theories/SightProofs.v
theories/P_Sight.v
theories/LookupModel.v
theories/P_Lookup.v

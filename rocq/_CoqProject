-Q theories Verif
theories/Addition.v
theories/AdjustProofs.v
theories/AodModel.v
theories/Arr.v
theories/AttrModel.v
theories/Base.v
theories/CmrModel.v
theories/ConvertModel.v
theories/CptModel.v
theories/CsrModel.v
theories/DataPathModel.v
theories/DealiasModel.v
theories/DecimalProofs.v
theories/DegreeOneModel.v
theories/DegreeOneProofs.v
theories/DestripeModel.v
theories/DestripeProofs.v
theories/DestripeProofs2.v
theories/DownModel.v
theories/ErrorModel.v
theories/FigModel.v
theories/FileObjModel.v
theories/FourierGenModel.v
theories/FourierGenProofs.v
theories/FourierLegModel.v
theories/FourierLegProofs.v
theories/FunkHecke.v
theories/GaussModel.v
theories/GaussProofs.v
theories/GenModel.v
theories/GenProofs.v
theories/GeoModel.v
theories/GeoObjModel.v
theories/GeoProofs.v
theories/GeoReadModel.v
theories/GfcModel.v
theories/GiaModel.v
theories/GraceModel.v
theories/GradModel.v
theories/GradProofs.v
theories/HarmModel.v
theories/HarmProofs.v
theories/HarmProofs2.v
theories/HarmProofs3.v
theories/HeapModel.v
theories/HeapProofs.v
theories/IcgemListModel.v
theories/IndexModel.v
theories/InputSelModel.v
theories/LegendreFourier.v
theories/LegendreModel.v
theories/LegendreOneModel.v
theories/LegendreOneProofs.v
theories/LegendreOrtho.v
theories/LegendreProofs.v
theories/LegendreProofs2.v
theories/LegendreSpec.v
theories/LegendreSpec2.v
theories/LinAlg.v
theories/LoadModel.v
theories/LogModel.v
theories/LoginModel.v
theories/LoveModel.v
theories/LoveObjModel.v
theories/LoveTextModel.v
theories/Lstsq.v
theories/MapsModel.v
theories/MapsProofs.v
theories/MasconFitModel.v
theories/MasconFitProofs.v
theories/MasconModel.v
theories/MaskModel.v
theories/McModel.v
theories/MeanModel.v
theories/MkIndexModel.v
theories/NameModel.v
theories/NameProofs.v
theories/NcIndexModel.v
theories/NcModel.v
theories/ObjModel.v
theories/Parseval.v
theories/PropAod.v
theories/PropAttr.v
theories/PropCmr.v
theories/PropColormap.v
theories/PropCombine.v
theories/PropConvert.v
theories/PropCpt.v
theories/PropDataPath.v
theories/PropDealias.v
theories/PropDegreeOne.v
theories/PropDestripe.v
theories/PropDown.v
theories/PropError.v
theories/PropFactors.v
theories/PropFig.v
theories/PropFileObj.v
theories/PropFourierGen.v
theories/PropFourierLeg.v
theories/PropGauss.v
theories/PropGen.v
theories/PropGen2.v
theories/PropGeo.v
theories/PropGeoObj.v
theories/PropGeoRead.v
theories/PropGeostrophic.v
theories/PropGfc.v
theories/PropGia.v
theories/PropGrace.v
theories/PropGraceDate.v
theories/PropGraceInput.v
theories/PropGrad.v
theories/PropHarm.v
theories/PropIcgemList.v
theories/PropIndex.v
theories/PropInputSel.v
theories/PropKernel.v
theories/PropLegendre.v
theories/PropLegendreOne.v
theories/PropLoad.v
theories/PropLoadField.v
theories/PropLog.v
theories/PropLogin.v
theories/PropLove.v
theories/PropLoveObj.v
theories/PropLoveText.v
theories/PropLoveText2.v
theories/PropMaps.v
theories/PropMascon.v
theories/PropMasconFit.v
theories/PropMasconKernel.v
theories/PropMask.v
theories/PropMc.v
theories/PropMc2.v
theories/PropMean.v
theories/PropMkIndex.v
theories/PropMkIndex2.v
theories/PropMkIndex3.v
theories/PropName.v
theories/PropName2.v
theories/PropName3.v
theories/PropNc.v
theories/PropNc2.v
theories/PropNc3.v
theories/PropNc4.v
theories/PropNcIndex.v
theories/PropNcIndex2.v
theories/PropObj.v
theories/PropPiecewise.v
theories/PropQuick.v
theories/PropQuick2.v
theories/PropQuick3.v
theories/PropQuick4.v
theories/PropRaster.v
theories/PropReconstruct.v
theories/PropRegress.v
theories/PropRegress2.v
theories/PropSavgol.v
theories/PropScale.v
theories/PropScaleFile.v
theories/PropSle.v
theories/PropSleRun.v
theories/PropSlr.v
theories/PropSlr2.v
theories/PropSlr3.v
theories/PropSmooth.v
theories/PropSmoothMap.v
theories/PropSpNc.v
theories/PropSpNc2.v
theories/PropSpNc3.v
theories/PropSpNc4.v
theories/PropSpNc5.v
theories/PropSpNcIndex.v
theories/PropSpatial.v
theories/PropSummation.v
theories/PropSync.v
theories/PropText.v
theories/PropText2.v
theories/PropText3.v
theories/PropText4.v
theories/PropTime.v
theories/PropTimeString.v
theories/PropTools.v
theories/PropTrendMap.v
theories/PropTrendMap2.v
theories/PropTrendMap3.v
theories/PropTrendMap4.v
theories/PropTs.v
theories/PropUnits.v
theories/PropUplift.v
theories/PropUpload.v
theories/PropUtil.v
theories/PropUtil2.v
theories/PropWidget.v
theories/QuickModel.v
theories/RasterModel.v
theories/ReconstructModel.v
theories/ReduceModel.v
theories/ReduceProofs.v
theories/RegressModel.v
theories/RegressProofs.v
theories/ScaleFileModel.v
theories/ScaleModel.v
theories/SleModel.v
theories/SleProofs.v
theories/SleRunModel.v
theories/SlrModel.v
theories/SpNcIndexModel.v
theories/SpNcModel.v
theories/SpatialHeap.v
theories/SpatialModel.v
theories/SpatialProofs.v
theories/SpatialProofs2.v
theories/SpatialProofs3.v
theories/SpatialProofs4.v
theories/SpatialProofs5.v
theories/SpatialProofs6.v
theories/SpatialSpec.v
theories/SummationModel.v
theories/SummationProofs.v
theories/SyncModel.v
theories/TextModel.v
theories/TextProofs.v
theories/TimeModel.v
theories/TimeProofs.v
theories/TimeProofs2.v
theories/TimeSpec.v
theories/TimeStringModel.v
theories/ToolsModel.v
theories/TrendMapModel.v
theories/TsModel.v
theories/UnitsModel.v
theories/UnitsProofs.v
theories/UpliftModel.v
theories/UploadModel.v
theories/UtilModel.v
theories/WidgetModel.v

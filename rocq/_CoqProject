-Q theories Verif
theories/ActModel.v
theories/ApiModel.v
theories/BcastProofs.v
theories/CompressModel.v
theories/CompressProofs.v
theories/CompressSpec.v
theories/CompressTop.v
theories/ComputeModel.v
theories/ComputeProofs.v
theories/ComputeSpec.v
theories/ComputeTop.v
theories/ConstProofs.v
theories/ConstWork.v
theories/ConvBNModel.v
theories/ConvBNProofs.v
theories/ConvBNSpec.v
theories/ConvBNTop.v
theories/ConvTModel.v
theories/CostModel.v
theories/CostProofs.v
theories/CostSpec.v
theories/DanglingProofs.v
theories/Decide.v
theories/Demo.v
theories/DescChain.v
theories/DescModel.v
theories/DescProofs.v
theories/DescSpec.v
theories/DualModel.v
theories/DualProofs.v
theories/DumpModel.v
theories/EditModel.v
theories/EditSpec.v
theories/EinsumModel.v
theories/EinsumProofs.v
theories/EinsumSpec.v
theories/ExecModel.v
theories/ExecProofs.v
theories/ExportModel.v
theories/ExportProofs.v
theories/FloatPy.v
theories/FuseProofs.v
theories/FusionMeets.v
theories/FusionModel.v
theories/FusionPair.v
theories/FusionProofs.v
theories/FusionSpec.v
theories/FusionTop.v
theories/GraphModel.v
theories/IfFlat.v
theories/IfModel.v
theories/IfProofs.v
theories/IfSpec.v
theories/IfTensors.v
theories/IfTotal.v
theories/InferLoop.v
theories/InferModel.v
theories/InferProofs.v
theories/InferSpec.v
theories/InferWork.v
theories/IoModModel.v
theories/IoModProofs.v
theories/IoModSpec.v
theories/IoProofs.v
theories/LayoutProofs.v
theories/LlmBuild.v
theories/LlmCost.v
theories/LlmCostOps.v
theories/LlmCostProofs.v
theories/LlmCostRows.v
theories/LlmCostSpec.v
theories/LlmCostTop.v
theories/LlmGraphProofs.v
theories/LlmInfer.v
theories/LlmInferProofs.v
theories/LlmKv.v
theories/LlmLayers.v
theories/LlmModel.v
theories/LlmNames.v
theories/LlmPerf.v
theories/LlmProofs.v
theories/LlmRebuild.v
theories/LlmRebuildModel.v
theories/LlmRel.v
theories/LlmReportModel.v
theories/LlmSpec.v
theories/LlmWire.v
theories/LlmWireSpec.v
theories/LoadFinal.v
theories/LoadFold.v
theories/LoadLoop.v
theories/LoadModel.v
theories/LoadNames.v
theories/LoadProofs.v
theories/LoadSave.v
theories/LoadSpec.v
theories/MemTop.v
theories/OrderProofs.v
theories/OrderSpec.v
theories/PartitionModel.v
theories/PartitionProofs.v
theories/PartitionSpec.v
theories/PoolModel.v
theories/PoolProofs.v
theories/PostOpAttrs.v
theories/PostOpLoop.v
theories/PostOpModel.v
theories/PostOpProofs.v
theories/ProfileModel.v
theories/ProfileProofs.v
theories/Props_Act.v
theories/Props_Api.v
theories/Props_Compute.v
theories/Props_ConvBN.v
theories/Props_ConvT.v
theories/Props_Cost.v
theories/Props_Desc.v
theories/Props_Dual.v
theories/Props_Dump.v
theories/Props_Edit.v
theories/Props_Einsum.v
theories/Props_Export.v
theories/Props_Fusion.v
theories/Props_If.v
theories/Props_Infer.v
theories/Props_IoMod.v
theories/Props_Llm.v
theories/Props_LlmCost.v
theories/Props_LlmGraph.v
theories/Props_LlmInfer.v
theories/Props_LlmKv.v
theories/Props_LlmPerf.v
theories/Props_LlmRebuild.v
theories/Props_LlmReport.v
theories/Props_LlmWire.v
theories/Props_Load.v
theories/Props_Memory.v
theories/Props_Order.v
theories/Props_Pairs.v
theories/Props_Pool.v
theories/Props_PostOp.v
theories/Props_Profile.v
theories/Props_Proto.v
theories/Props_QGraph.v
theories/Props_QOps.v
theories/Props_Quant.v
theories/Props_Refresh.v
theories/Props_Registry.v
theories/Props_Regress.v
theories/Props_Serial.v
theories/Props_Shape.v
theories/Props_Shape2.v
theories/Props_ShapeOps.v
theories/Props_Sparse.v
theories/Props_Subtree.v
theories/Props_Tight.v
theories/Props_TopK.v
theories/Props_Value.v
theories/Props_Value2.v
theories/Props_Value3.v
theories/Props_Vision.v
theories/ProtoModel.v
theories/ProtoProofs.v
theories/ProtoSpec.v
theories/PyBase.v
theories/PyBaseFacts.v
theories/QGraphModel.v
theories/QGraphProofs.v
theories/QGraphValues.v
theories/QOpsModel.v
theories/QuantModel.v
theories/QuantProofs.v
theories/QuantTop.v
theories/RefreshModel.v
theories/RegistryModel.v
theories/RegistryProofs.v
theories/RegressDiv.v
theories/RegressModel.v
theories/RegressMulti.v
theories/RegressOrder.v
theories/RegressProofs.v
theories/RelProofs.v
theories/RelSpec.v
theories/RemoveProofs.v
theories/SerialFits.v
theories/SerialModel.v
theories/SerialProofs.v
theories/SerialSpec.v
theories/ShapeModel.v
theories/ShapeModel2.v
theories/ShapeOpsLoop.v
theories/ShapeOpsModel.v
theories/ShapeOpsProofs.v
theories/ShapeOpsSpec.v
theories/ShapeSpec.v
theories/ShapeSpec2.v
theories/SkipProofs.v
theories/SliceProofs.v
theories/SparseModel.v
theories/SparseProofs.v
theories/SparseSpec.v
theories/SubtreeModel.v
theories/TopKModel.v
theories/TopKProofs.v
theories/TopKSpec.v
theories/TopSortModel.v
theories/TopSortProofs.v
theories/TopSortSpec.v
theories/ValueModel.v
theories/ValueModel2.v
theories/ValueModel3.v
theories/ValueModel4.v
theories/ValueProofs.v
theories/ValueProofs2.v
theories/ValueProofs3.v
theories/ValueProofs4.v
theories/ValueProofs5.v
theories/ValueProofs6.v
theories/ValueProofs7.v
theories/ValueProofs8.v
theories/ValueSpec.v
theories/ValueSpec3.v
theories/ValueSpec4.v
theories/VisionCost.v
theories/VisionFits.v
theories/VisionGraph.v
theories/VisionInfer.v
theories/VisionModel.v
theories/VisionProofs.v
theories/VisionSpec.v
theories/VisionWire.v
theories/WindowProofs.v

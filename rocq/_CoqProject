-Q theories Verif
theories/AaProofs.v
theories/AbortProofs.v
theories/Arith.v
theories/Base.v
theories/Blend.v
theories/BlendColorProofs.v
theories/BlendProofs.v
theories/BoxProofs.v
theories/Brush.v
theories/BrushInst.v
theories/BrushProofs.v
theories/BrushSettings.v
theories/BrushToy.v
theories/ChosenProofs.v
theories/Color.v
theories/ColorFloat.v
theories/ColorHcyProofs.v
theories/ColorProofs.v
theories/ColorRound.v
theories/CompleteProofs.v
theories/Dab.v
theories/DabFrame.v
theories/DabProofs.v
theories/DabSeen.v
theories/Deeds.v
theories/DirtyProofs.v
theories/Easel.v
theories/EaselDab.v
theories/EaselDefaults.v
theories/EaselEnd.v
theories/EaselLast.v
theories/EaselNum.v
theories/EaselProg.v
theories/EaselProofs.v
theories/EaselRun.v
theories/EaselStep.v
theories/EaselSurf.v
theories/EndNum.v
theories/F32.v
theories/F32Proofs.v
theories/FarProofs.v
theories/Fifo.v
theories/FifoProofs.v
theories/FixedSurface.v
theories/GapFloat.v
theories/GapProofs.v
theories/Gegl.v
theories/GeglProofs.v
theories/HistoryProofs.v
theories/HoverProofs.v
theories/Json.v
theories/KeepProofs.v
theories/Mapping.v
theories/MappingFloat.v
theories/Mask.v
theories/MaskFloatProofs.v
theories/MaskProofs.v
theories/OpaProofs.v
theories/P_Abort.v
theories/P_Blend.v
theories/P_Bucket.v
theories/P_BucketDab.v
theories/P_Chosen.v
theories/P_Color.v
theories/P_Complete.v
theories/P_Dab.v
theories/P_Defaults.v
theories/P_Dirty.v
theories/P_Easel.v
theories/P_End.v
theories/P_Endless.v
theories/P_Fifo.v
theories/P_Filter.v
theories/P_Fixed.v
theories/P_Gegl.v
theories/P_Hover.v
theories/P_Json.v
theories/P_Limits.v
theories/P_Limits2.v
theories/P_Mapping.v
theories/P_Mask.v
theories/P_Matrix.v
theories/P_Paint.v
theories/P_Pigment.v
theories/P_Plumb.v
theories/P_Queue.v
theories/P_Reach.v
theories/P_Recolour.v
theories/P_RecolourDefault.v
theories/P_Rect.v
theories/P_Reset.v
theories/P_Rng.v
theories/P_Sample.v
theories/P_SampleReturn.v
theories/P_Settings.v
theories/P_Shift.v
theories/P_Spacing.v
theories/P_Spectral.v
theories/P_Surface.v
theories/P_SymSafe.v
theories/P_Symmetry.v
theories/P_Time.v
theories/P_Under.v
theories/P_UnderDefault.v
theories/Paint.v
theories/PaintProofs.v
theories/PassProofs.v
theories/PigmentLog.v
theories/PigmentMix.v
theories/PigmentPow.v
theories/PigmentStore.v
theories/Plumb.v
theories/PlumbProofs.v
theories/Queue.v
theories/QueueProofs.v
theories/RealToy.v
theories/RecolourProofs.v
theories/Rect.v
theories/Refcount.v
theories/ReturnProofs.v
theories/Rng.v
theories/RngProofs.v
theories/RoiProofs.v
theories/RrProofs.v
theories/Sample.v
theories/SampleProofs.v
theories/SampleProofs2.v
theories/SampleProofs3.v
theories/SampleReturn.v
theories/SampleReturn2.v
theories/SampleSpec.v
theories/SessionProofs.v
theories/Settings.v
theories/ShiftEvents.v
theories/ShiftOffsets.v
theories/ShiftProofs.v
theories/Spectral.v
theories/StepFacts.v
theories/StrokeExact.v
theories/SurfProofs.v
theories/SymCopies.v
theories/SymReach.v
theories/Symmetry.v
theories/SymmetryProofs.v
theories/UnderProofs.v

-Q theories Verif
theories/Model/Base.v
theories/Model/Nom.v
theories/Model/Utf8.v
theories/Model/Scalars.v
theories/Model/Enums.v
theories/Model/Header.v
theories/Model/UserData.v
theories/Model/Chunks.v
theories/Model/RawFile.v
theories/Model/Steps.v
theories/Model/Palette.v
theories/Model/File.v
theories/Model/Blend.v
theories/Model/Loader.v
theories/Model/Messages.v
theories/Model/DebugTexts.v
theories/Model/Inflate.v
theories/Model/Hasher.v
theories/Spec/Bytes.v
theories/Spec/Utf8Spec.v
theories/Spec/Format.v
theories/Spec/Slices.v
theories/Spec/FileSpec.v
theories/Spec/LoaderSpec.v
theories/Spec/ImageSpec.v
theories/Spec/BlendSpec.v
theories/Spec/RenderSpec.v
theories/Spec/Encode.v
theories/Spec/Size.v
theories/Spec/Zlib.v
theories/Spec/Drawing.v
theories/Spec/Published.v
theories/Spec/HslSpec.v
theories/Spec/Edits.v
theories/Spec/Composite.v
theories/Spec/Ideal.v
theories/Spec/Laws.v
theories/Spec/Errors.v
theories/Spec/Messages.v
theories/Spec/Loads.v
theories/Spec/Refusals.v
theories/Spec/Hash.v
theories/Spec/Looks.v
theories/Spec/Made.v
theories/Spec/Usage.v
theories/Spec/AllModes.v
theories/Proofs/Utf8Facts.v
theories/Proofs/ParseLib.v
theories/Proofs/ChunkFacts.v
theories/Proofs/ChunkFacts2.v
theories/Proofs/UserDataFacts.v
theories/Proofs/RawFacts.v
theories/Proofs/Safety.v
theories/Proofs/SlicesFacts.v
theories/Proofs/BinaryProps.v
theories/Proofs/BinaryProps2.v
theories/Tests/Configs.v
theories/Tests/TestData.v
theories/Proofs/BinaryFinal.v
theories/Proofs/FileFacts.v
theories/Proofs/PaletteFacts.v
theories/Proofs/FileProps.v
theories/Proofs/LoaderFacts.v
theories/Proofs/LoaderProps.v
theories/Tests/Build.v
theories/Proofs/FileFinal.v
theories/Proofs/ImageFacts.v
theories/Proofs/ImageProps.v
theories/Proofs/SoftLight.v
theories/Proofs/BlendFacts.v
theories/Proofs/BlendProps.v
theories/Proofs/FloatFacts.v
theories/Proofs/FloatNear.v
theories/Proofs/HslFacts.v
theories/Proofs/HslProps.v
theories/Proofs/RenderFacts.v
theories/Proofs/RenderProps.v
theories/Proofs/CanvasProps.v
theories/Proofs/SplitProps.v
theories/Proofs/Profile.v
theories/Proofs/Width.v
theories/Proofs/EncodeFacts.v
theories/Proofs/EncodeProps.v
theories/Proofs/SizeProps.v
theories/Proofs/WriterFinal.v
theories/Proofs/InflateFacts.v
theories/Proofs/DrawingProps.v
theories/Proofs/PublishedProps.v
theories/Proofs/ZlibProps.v
theories/Proofs/CompositeProps.v
theories/Proofs/IdealProps.v
theories/Proofs/LawProps.v
theories/Proofs/RecolourProps.v
theories/Proofs/ExactProps.v
theories/Proofs/RefusalProps.v
theories/Proofs/HashProps.v
theories/Proofs/LooksProps.v
theories/Proofs/MadeProps.v
theories/Proofs/UsageProps.v
theories/Proofs/AllModesProps.v
theories/Proofs/DebugProps.v
theories/Proofs/ErrorProps.v
theories/Proofs/MessageProps.v
theories/Proofs/EditFacts.v
theories/Proofs/EditProps.v
theories/Proofs/LoadsProps.v
theories/Proofs/OverflowProps.v
theories/Proofs/WrittenProps.v
theories/Proofs/DisplayProps.v
theories/Tests/RepoTests.v
theories/Tests/Hashes.v
theories/Properties/Binary.v
theories/Properties/File.v
theories/Properties/Image.v
theories/Properties/Blend.v
theories/Properties/Render.v
theories/Properties/Canvas.v
theories/Properties/Platform.v
theories/Properties/Writer.v
theories/Properties/Drawing.v
theories/Properties/Published.v
theories/Properties/Hsl.v
theories/Properties/Edits.v
theories/Properties/Composite.v
theories/Properties/Ideal.v
theories/Properties/Laws.v
theories/Properties/Errors.v
theories/Properties/Recolour.v
theories/Properties/Exact.v
theories/Properties/Refusals.v
theories/Properties/Hash.v
theories/Properties/Looks.v
theories/Properties/Made.v
theories/Properties/Usage.v
theories/Properties/AllModes.v
theories/Properties/Debug.v
theories/Proofs/MemoryProps.v
theories/Properties/Memory.v
theories/Properties/Loads.v
theories/Properties/Messages.v
theories/Spec/Deflate.v
theories/Proofs/DeflateFacts.v
theories/Proofs/UnpackProps.v
theories/Properties/Deflate.v
theories/Spec/Convert.v
theories/Proofs/ConvertProps.v
theories/Proofs/TurnProps.v
theories/Properties/Convert.v
theories/Spec/Mistakes.v
theories/Proofs/MistakeProps.v
theories/Properties/Mistakes.v
theories/Spec/FirstMistake.v
theories/Proofs/FirstMistakeProps.v
theories/Properties/FirstMistake.v
theories/Spec/Displays.v
theories/Proofs/ShownProps.v
theories/Properties/Displays.v
theories/Spec/Asserts.v
theories/Proofs/AssertProps.v
theories/Properties/Asserts.v
theories/Spec/Piles.v
theories/Proofs/PileProps.v
theories/Properties/Piles.v
theories/Proofs/SelectProps.v
theories/Properties/Selected.v
theories/Spec/Baked.v
theories/Proofs/SimProps.v
theories/Proofs/BakeProps.v
theories/Properties/Baked.v
theories/Spec/Trimmed.v
theories/Proofs/TrimProps.v
theories/Properties/Trimmed.v
theories/Spec/Repaint.v
theories/Proofs/RepaintProps.v
theories/Properties/Repaint.v
theories/Spec/Kept.v
theories/Proofs/KeptProps.v
theories/Properties/Kept.v
theories/Spec/Scaled.v
theories/Proofs/PlaceProps.v
theories/Proofs/ScaleProps.v
theories/Properties/Scaled.v
theories/Spec/Cut.v
theories/Proofs/CutProps.v
theories/Properties/Cut.v
theories/Spec/Merged.v
theories/Proofs/MergeProps.v
theories/Properties/Merged.v
theories/Spec/Patch.v
theories/Proofs/PatchProps.v
theories/Proofs/PatchMore.v
theories/Properties/Patch.v
theories/Spec/Held.v
theories/Proofs/HeldProps.v
theories/Properties/Held.v
theories/Spec/Later.v
theories/Proofs/LaterProps.v
theories/Properties/Later.v
theories/Spec/Grown.v
theories/Proofs/GrownProps.v
theories/Properties/Grown.v
theories/Spec/Taken.v
theories/Proofs/TakenProps.v
theories/Proofs/BackwardsProps.v
theories/Properties/Taken.v
theories/Spec/Stable.v
theories/Proofs/SoftOrder.v
theories/Proofs/StableProps.v
theories/Properties/Stable.v
theories/Spec/Recoded.v
theories/Proofs/RecodedProps.v
theories/Properties/Recoded.v
theories/Spec/Shortened.v
theories/Proofs/ShortenedProps.v
theories/Properties/Shortened.v
theories/Spec/Faded.v
theories/Proofs/FadedProps.v
theories/Properties/Faded.v
theories/Spec/Joined.v
theories/Proofs/JoinedProps.v
theories/Properties/Joined.v
theories/Spec/Alphas.v
theories/Proofs/AlphaProps.v
theories/Properties/Alphas.v
theories/Spec/Cropped.v
theories/Proofs/CropProps.v
theories/Properties/Cropped.v
theories/Spec/Overlaid.v
theories/Proofs/OverlaidProps.v
theories/Properties/Overlaid.v
theories/Spec/Sheet.v
theories/Proofs/SheetProps.v
theories/Properties/Sheet.v
theories/Spec/Damage.v
theories/Proofs/DamageProps.v
theories/Properties/Damage.v
theories/Proofs/StepsProps.v
theories/Properties/Steps.v
theories/Proofs/UnusedProps.v
theories/Properties/Unused.v
theories/Model/Work.v
theories/Spec/Work.v
theories/Proofs/WorkProps.v
theories/Properties/Work.v
theories/Model/LoadSteps.v
theories/Proofs/LoadStepsProps.v
theories/Properties/LoadSteps.v
theories/Model/ImageWork.v
theories/Proofs/ImageWorkProps.v
theories/Properties/ImageWork.v
theories/Model/RenderSteps.v
theories/Proofs/RenderStepsProps.v
theories/Properties/RenderSteps.v
theories/Spec/RawWork.v
theories/Proofs/RawWorkProps.v
theories/Properties/RawWork.v

-Q theories Verif
theories/Base/Num.v
theories/Base/Res.v
theories/Base/SMap.v
theories/Base/RSum.v
theories/Base/ListLemmas.v
theories/Model/Beam.v
theories/Model/Material.v
theories/Model/TransmissionTable.v
theories/Spec/BeamSpec.v
theories/Proofs/BeamProofs.v
theories/Proofs/BeamProofs2.v
theories/Properties/BeamProps.v
theories/Spec/MaterialSpec.v
theories/Proofs/MaterialProofs.v
theories/Properties/MaterialProps.v
theories/Spec/TransmissionSpec.v
theories/Proofs/TransmissionProofs.v
theories/Properties/TransmissionProps.v
theories/Model/Layer.v
theories/Spec/LayerSpec.v
theories/Proofs/LayerProofs.v
theories/Properties/LayerProps.v
theories/Model/Math.v
theories/Proofs/MathProofs.v
theories/Properties/MathProps.v
theories/Base/Str.v
theories/Model/Shell.v
theories/Spec/ShellSpec.v
theories/Proofs/ShellProofs.v
theories/Proofs/ShellProofs2.v
theories/Proofs/ShellProofs3.v
theories/Properties/ShellProps.v
theories/Model/Element.v
theories/Spec/ElementSpec.v
theories/Proofs/ElementProofs.v
theories/Proofs/ElementProofs2.v
theories/Proofs/ElementProofs3.v
theories/Proofs/ElementProofs4.v
theories/Proofs/ElementProofs5.v
theories/Proofs/ElementProofs6.v
theories/Proofs/ElementProofs7.v
theories/Proofs/ElementProofs8.v
theories/Properties/ElementProps.v
theories/Proofs/ElementProofs9.v
theories/Proofs/ElementProofs10.v
theories/Model/Formula.v
theories/Spec/FormulaSpec.v
theories/Proofs/FormulaProofs.v
theories/Proofs/FormulaProofs2.v
theories/Proofs/FormulaProofs3.v
theories/Properties/FormulaProps.v
theories/Proofs/ElementProofs11.v
theories/Proofs/LayerProofs2.v
theories/Model/Elements.v
theories/Spec/ElementsSpec.v
theories/Proofs/ElementsProofs.v
theories/Proofs/ElementsProofs2.v
theories/Properties/ElementsProps.v
theories/Proofs/ElementsProofs3.v
theories/Proofs/ElementsProofs4.v
theories/Proofs/ElementsProofs5.v
theories/Properties/ElementsProps2.v
theories/Proofs/ElementsProofs6.v
theories/Properties/ElementsProps3.v
theories/Model/XRF.v
theories/Spec/XRFSpec.v
theories/Proofs/XRFProofs.v
theories/Properties/XRFProps.v
theories/Base/Text.v
theories/Model/SimpleIni.v
theories/Spec/IniSpec.v
theories/Proofs/IniProofs.v
theories/Properties/IniProps.v
theories/Model/Specfile.v
theories/Spec/SpecfileSpec.v
theories/Proofs/SpecfileProofs.v
theories/Properties/SpecfileProps.v
theories/Model/EPDL97.v
theories/Spec/EPDL97Spec.v
theories/Proofs/EPDL97Proofs.v
theories/Proofs/EPDL97Proofs2.v
theories/Proofs/EPDL97Proofs3.v
theories/Proofs/EPDL97Proofs4.v
theories/Properties/EPDL97Props.v
theories/Proofs/EPDL97Proofs5.v
theories/Properties/EPDL97Props2.v
theories/Model/Multilayer.v
theories/Spec/MultilayerSpec.v
theories/Proofs/MultilayerProofs.v
theories/Proofs/MultilayerProofs2.v
theories/Proofs/MultilayerProofs3.v
theories/Proofs/MultilayerProofs4.v
theories/Proofs/MultilayerProofs5.v
theories/Proofs/MultilayerProofs6.v
theories/Proofs/MultilayerProofs7.v
theories/Proofs/MultilayerProofs8.v
theories/Proofs/MultilayerProofs9.v
theories/Proofs/MultilayerProofs10.v
theories/Proofs/MultilayerProofs11.v
theories/Proofs/MultilayerProofs12.v
theories/Proofs/MultilayerProofs13.v
theories/Proofs/MultilayerProofs14.v
theories/Proofs/MultilayerProofs15.v
theories/Proofs/MultilayerProofs16.v
theories/Proofs/MultilayerProofs17.v
theories/Proofs/MultilayerExample.v
theories/Proofs/MultilayerProofs18.v
theories/Properties/MultilayerProps.v
theories/Model/XRFLibrary.v
theories/Spec/LibrarySpec.v
theories/Proofs/LibraryProofs.v
theories/Proofs/LibraryProofs2.v
theories/Proofs/LibraryProofs3.v
theories/Proofs/LibraryExample.v
theories/Properties/LibraryProps.v
theories/Spec/EscapeSpec.v
theories/Proofs/EscapeProofs.v
theories/Proofs/EscapeProofs2.v
theories/Proofs/EscapeProofs3.v
theories/Properties/EscapeProps.v
theories/Properties/XRFProps2.v
theories/Properties/XRFProps3.v
theories/Spec/SecondarySpec.v
theories/Proofs/MultilayerProofs19.v
theories/Proofs/MultilayerProofs20.v
theories/Proofs/MultilayerProofs21.v
theories/Proofs/MultilayerProofs22.v
theories/Proofs/MultilayerProofs23.v
theories/Proofs/MultilayerProofs24.v
theories/Proofs/MultilayerProofs25.v
theories/Proofs/LibraryProofs4.v
theories/Properties/SecondaryProps.v
theories/Spec/TertiarySpec.v
theories/Proofs/MultilayerProofs26.v
theories/Proofs/MultilayerProofs27.v
theories/Proofs/TertiaryExample.v
theories/Properties/TertiaryProps.v
theories/Spec/FieldsSpec.v
theories/Proofs/FieldsProofs.v
theories/Properties/FieldsProps.v
theories/Model/ConfigFile.v
theories/Spec/ConfigSpec.v
theories/Proofs/ConfigProofs.v
theories/Proofs/ConfigProofs2.v
theories/Proofs/ConfigProofs3.v
theories/Proofs/ConfigProofs4.v
theories/Proofs/ConfigProofs5.v
theories/Properties/ConfigProps.v
theories/Properties/ConfigProps2.v
theories/Proofs/EPDL97Proofs6.v
theories/Proofs/EPDL97Proofs7.v
theories/Proofs/EPDL97Proofs8.v
theories/Properties/EPDL97Props3.v
theories/Properties/EPDL97Props4.v
theories/Model/ElementsFiles.v
theories/Spec/FilesSpec.v
theories/Proofs/FilesProofs.v
theories/Proofs/FilesProofs2.v
theories/Proofs/FilesProofs3.v
theories/Proofs/FilesProofs4.v
theories/Properties/FilesProps.v
theories/Proofs/InitProofs.v
theories/Proofs/InitProofs2.v
theories/Proofs/InitProofs3.v
theories/Spec/InitSpec.v
theories/Proofs/InitProofs4.v
theories/Properties/InitProps.v
theories/Proofs/EPDL97Proofs9.v
theories/Properties/EPDL97Props5.v
theories/Proofs/MergeProofs.v
theories/Proofs/MergeProofs2.v
theories/Proofs/MergeProofs3.v
theories/Spec/MergeSpec.v
theories/Proofs/MergeProofs4.v
theories/Proofs/MergeProofs5.v
theories/Proofs/MergeProofs6.v
theories/Proofs/MergeProofs7.v
theories/Proofs/MergeProofs8.v
theories/Properties/MergeProps.v
theories/Proofs/MergeExample.v
theories/Spec/EdgeSpec.v
theories/Proofs/EdgeProofs.v
theories/Properties/EdgeProps.v
theories/Proofs/MergeProofs9.v
theories/Proofs/MergeProofs10.v
theories/Proofs/MergeProofs11.v
theories/Proofs/MergeProofs12.v
theories/Proofs/MergeProofs13.v
theories/Properties/MergeProps2.v
theories/Spec/MuFileSpec.v
theories/Proofs/MuFileProofs.v
theories/Proofs/MuFileProofs2.v
theories/Properties/MuFileProps.v
theories/Spec/SuperpositionSpec.v
theories/Proofs/SuperpositionProofs.v
theories/Properties/SuperpositionProps.v
theories/Properties/RequestProps.v
theories/Spec/SubdivisionSpec.v
theories/Properties/SubdivisionProps.v
theories/Spec/AttenuatorSpec.v
theories/Properties/AttenuatorProps.v

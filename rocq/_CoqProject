-Q theories Verif
theories/OpcodeModel.v
theories/OpcodeSpec.v
theories/OpcodeProof.v
theories/OpcodeProps.v
theories/ArithSpec.v
theories/ArithModel.v
theories/ArithProof.v
theories/ArithProps.v
theories/InstModel.v
theories/SectionsSpec.v
theories/SectionsModel.v
theories/SectionsProof.v
theories/SectionsProps.v
theories/GasMemModel.v
theories/GasMemSpec.v
theories/GasMemProof.v
theories/GasMemProps.v
theories/FlowSpec.v
theories/BlockModel.v
theories/CfgProof.v
theories/BlockProof.v
theories/LocalProof.v
theories/CommitProof.v
theories/GlobalProof.v
theories/FixpointProof.v
theories/ProgramModel.v
theories/ProgramProof.v
theories/JumpModel.v
theories/AnalysisProof.v
theories/DemoTables.v
theories/BlockProps.v
theories/RuntimeModel.v
theories/RuntimeSpec.v
theories/RuntimeProof.v
theories/RuntimeInv.v
theories/RuntimeInv2.v
theories/RuntimeInv3.v
theories/RuntimeInv4.v
theories/RuntimeInv5.v
theories/RuntimeInv6.v
theories/RuntimeInv7.v
theories/RuntimeProps.v
theories/DedupModel.v
theories/DedupProof.v
theories/DedupRedir.v
theories/DedupLive.v
theories/DedupBase.v
theories/SimProof.v
theories/DedupStart.v
theories/DedupProps.v
theories/AsmModel.v
theories/AsmSpec.v
theories/AsmProof.v
theories/AsmProps.v
theories/VStackModel.v
theories/VStackSpec.v
theories/VStackProof.v
theories/VStackProps.v
theories/DseModel.v
theories/DseSpec.v
theories/DseProof.v
theories/DseDemo.v
theories/DseProps.v
theories/StructProof.v
theories/SummarySpec.v
theories/SummaryProof.v
theories/SummaryDemo.v
theories/LinkProof.v
theories/SummaryProps.v
theories/WordModel.v
theories/WordSpec.v
theories/WordProof.v
theories/WordProps.v
theories/BuiltinModel.v
theories/BuiltinSpec.v
theories/BuiltinProof.v
theories/BuiltinProps.v
theories/InfoModel.v
theories/InfoSpec.v
theories/InfoProof.v
theories/InfoProps.v
theories/TableProof.v
theories/TableProps.v
theories/ResumeModel.v
theories/ResumeSpec.v
theories/ResumeProof.v
theories/ResumeProps.v
theories/MemSecModel.v
theories/MemSecSpec.v
theories/MemSecProof.v
theories/MemSecProps.v
theories/LifeModel.v
theories/LifeSpec.v
theories/LifeProof.v
theories/LifeProps.v
theories/HelperModel.v
theories/HelperSpec.v
theories/HelperProof.v
theories/HelperProps.v
theories/ConfigModel.v
theories/ConfigSpec.v
theories/ConfigProof.v
theories/ConfigProps.v
theories/ArtifactModel.v
theories/ArtifactSpec.v
theories/ArtifactProof.v
theories/ArtifactProps.v
theories/HoldModel.v
theories/HoldSpec.v
theories/RuntimeInv8.v
theories/HoldProof.v
theories/HoldProof2.v
theories/HoldProps.v
theories/BudgetSpec.v
theories/BudgetProof.v
theories/BudgetProps.v
theories/RevmSpec.v
theories/EvmModel.v
theories/EvmSpec.v
theories/EvmProof.v
theories/EvmProps.v
theories/SectionFlow.v
theories/SectionFlowProps.v
theories/MemBaseModel.v
theories/MemBaseSpec.v
theories/MemBaseProof.v
theories/MemBaseProps.v
theories/HostModel.v
theories/HostSpec.v
theories/HostProof.v
theories/HostProps.v
theories/WholeModel.v
theories/WholeSpec.v
theories/WholeRun.v
theories/WholeProof.v
theories/WholeProps.v
theories/TokModel.v
theories/TokSpec.v
theories/TokProof.v
theories/MacroProof.v
theories/TokProps.v
theories/AsmTextModel.v
theories/AsmTextProps.v
theories/AttrModel.v
theories/AttrSpec.v
theories/AttrProof.v
theories/AttrProps.v
theories/TrampModel.v
theories/TrampSpec.v
theories/TrampProof.v
theories/TrampProps.v
theories/DefModel.v
theories/DefSpec.v
theories/DefProof.v
theories/DefProps.v
theories/ListModel.v
theories/ListSpec.v
theories/ListProof.v
theories/ListProps.v
theories/HlimModel.v
theories/HlimSpec.v
theories/HlimProof.v
theories/HlimProps.v

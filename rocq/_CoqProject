-Q theories Verif
theories/Base.v
theories/PyRange.v
theories/DtModel.v
theories/DtSpec.v
theories/DtFloat.v
theories/DtProofs.v
theories/DtProofs2.v
theories/DtProofs3.v
theories/Prop_Dt.v
theories/DtObject.v
theories/Prop_DtObject.v
theories/DtZone.v
theories/Prop_Zone.v
theories/DtStep.v
theories/Prop_Step.v
theories/Prims.v
theories/MathModel.v
theories/MathSpec.v
theories/MathProofs.v
theories/ChoiceModel.v
theories/ChoiceRun.v
theories/ChoiceProofs.v
theories/ChoiceProofs2.v
theories/NumLaws.v
theories/QcNum.v
theories/RealModel.v
theories/RealProofs.v
theories/Threshold.v
theories/NumSpec.v
theories/QcProofs.v
theories/ChoiceProofs3.v
theories/Demo.v
theories/FloatModel.v
theories/FloatNum.v
theories/Prop_Math.v
theories/ChoiceProofs4.v
theories/ChanceProofs.v
theories/Prop_Choice.v
theories/FixedModel.v
theories/FixedSpec.v
theories/FixedProofs.v
theories/Prop_Fixed.v
theories/Prop_FixedSet.v
theories/GroupModel.v
theories/WarnModel.v
theories/Prop_Group.v
theories/Values.v
theories/SigModel.v
theories/SigSpec.v
theories/WrapModel.v
theories/FieldModel.v
theories/SigProofs.v
theories/WrapSpec.v
theories/Prop_Wrap.v
theories/TextModel.v
theories/TextSpec.v
theories/TextProofs.v
theories/Prop_Text.v
theories/FieldSpec.v
theories/Prop_Field.v
theories/World.v
theories/Rel.v
theories/WorldProofs.v
theories/Agree.v
theories/WorldSpec.v
theories/WorldReset.v
theories/Histories.v
theories/WorldDemo.v
theories/Prop_World.v
theories/Prop_Previous.v
theories/WorldBuild.v
theories/BuildProofs.v
theories/Prop_Construct.v
theories/Prop_Number.v
theories/CountSpec.v
theories/Prop_Count.v
theories/ObjectSpec.v
theories/ProgramSpec.v
theories/ObjectProofs.v
theories/ObjectCalls.v
theories/Prop_Objects.v
theories/CallSpec.v
theories/Prop_Calls.v
theories/EmitSpec.v
theories/Prop_Emits.v
theories/CacheProofs.v
theories/UniqueSpec.v
theories/Prop_Unique.v
theories/Prop_Runs.v
theories/SeedKeep.v
theories/Prop_RngSeed.v
theories/EndSpec.v
theories/EndProofs.v
theories/Prop_Ends.v
theories/WorldSeed.v
theories/Prop_Seed.v
theories/Prop_Programs.v
theories/GroupList.v
theories/Prop_GroupList.v
theories/Prop_Exact.v
theories/Prop_ExactMath.v
theories/Prop_Installed.v
theories/BindModel.v
theories/Prop_Bind.v
theories/Prop_ZoneSame.v
theories/RealNum.v
theories/ProbSpec.v
theories/ProbProofs.v
theories/ProbMany.v
theories/Prop_Prob.v
theories/Prop_ProbCalls.v
theories/TwinSpec.v
theories/Twin.v
theories/Prop_Twin.v
theories/Prop_Parts.v
theories/Prop_Gate.v
theories/Prop_GateProb.v
theories/Prop_OldWrap.v
theories/UserSpec.v
theories/Prop_User.v
theories/Mersenne.v
theories/Conform_Math.v
theories/Conform_Dt.v
theories/Conform_Choice.v
theories/Conform_World.v
theories/IterModel.v
theories/IterSpec.v
theories/Prop_Iter.v
theories/LiveSpec.v
theories/Prop_Live.v
theories/Prop_Chance.v
theories/Prop_DtCheck.v
theories/MroModel.v
theories/MroSpec.v
theories/MroProofs.v
theories/MroInit.v
theories/Prop_Mro.v
theories/Prop_Inherit.v
theories/ChildModel.v
theories/ChildProofs.v
theories/Prop_Child.v
theories/Prop_Spell.v
theories/Prop_SpellProb.v
theories/ThreadModel.v
theories/ThreadProofs.v
theories/Prop_Thread.v
theories/ThreadIter.v
theories/Prop_ThreadIter.v
theories/ThreadField.v
theories/Prop_ThreadField.v
theories/CutModel.v
theories/Prop_Cut.v
theories/Prop_CutSet.v
theories/Prop_CutSchema.v
theories/CutIter.v
theories/Prop_CutIter.v
theories/CutSeq.v
theories/Prop_CutSeq.v
theories/CutFixed.v
theories/Prop_CutFixed.v

-Q theories Verif
theories/Base.v
theories/CIntModel.v
theories/GridModel.v
theories/GridSpec.v
theories/GridProofs.v
theories/GridProofs2.v
theories/GridProofs3.v
theories/GridProps.v
theories/StridedModel.v
theories/StridedProofs.v
theories/StridedProps.v
theories/UnitsModel.v
theories/UnitsSpec.v
theories/UnitsProofs.v
theories/UnitsProps.v
theories/LayoutModel.v
theories/LayoutSpec.v
theories/LayoutProofs.v
theories/LayoutProofs2.v
theories/LayoutProps.v
theories/FieldModel.v
theories/FieldSpec.v
theories/FieldProofs.v
theories/FieldProofs2.v
theories/FieldProofs3.v
theories/FieldProps.v
theories/RegistryModel.v
theories/RegistrySpec.v
theories/RegistryProofs.v
theories/RegistryProofs2.v
theories/RegistryProofs3.v
theories/RegistryProofs4.v
theories/RegistryProps.v
theories/StateModel.v
theories/StateSpec.v
theories/StateProofs.v
theories/StateProofs2.v
theories/StateProofs3.v
theories/StateProofs4.v
theories/StateProps.v
theories/DictModel.v
theories/DictSpec.v
theories/DictProofs.v
theories/DictProofs2.v
theories/DictProps.v
theories/IterModel.v
theories/IterSpec.v
theories/IterProofs.v
theories/IterProps.v
theories/SqrtModel.v
theories/SqrtProofs.v
theories/SqrtProps.v
theories/FrameModel.v
theories/FrameSpec.v
theories/FrameProofs.v
theories/FrameProps.v
theories/CommModel.v
theories/CommSpec.v
theories/CommProofs.v
theories/CommProps.v
theories/RingModel.v
theories/RingProofs.v
theories/GradModel.v
theories/GradSpec.v
theories/GradProofs.v
theories/GradProofs2.v
theories/GradProofs3.v
theories/GradProofs4.v
theories/GradProofs5.v
theories/GradProps.v
theories/TensorModel.v
theories/TensorSpec.v
theories/TensorProofs.v
theories/TensorProofs2.v
theories/TensorProofs3.v
theories/TensorProps.v
theories/NumpyModel.v
theories/NumpySpec.v
theories/NumpyProofs.v
theories/NumpyProofs2.v
theories/NumpyProofs3.v
theories/NumpyProofs4.v
theories/NumpyProofs5.v
theories/NumpyProofs6.v
theories/NumpyProofs7.v
theories/NumpyProps.v
theories/NetCDFModel.v
theories/NetCDFSpec.v
theories/NetCDFProofs.v
theories/NetCDFProofs2.v
theories/NetCDFProofs3.v
theories/NetCDFProofs4.v
theories/NetCDFProofs5.v
theories/NetCDFProofs6.v
theories/NetCDFProofs7.v
theories/NetCDFProofs8.v
theories/NetCDFProofs9.v
theories/NetCDFProofs10.v
theories/NetCDFProofs11.v
theories/NetCDFProofs12.v
theories/NetCDFProps.v
theories/MapModel.v
theories/MapSpec.v
theories/MapProofs.v
theories/MapProofs2.v
theories/MapProps.v
theories/CloneModel.v
theories/CloneSpec.v
theories/CloneProofs.v
theories/CloneProofs2.v
theories/CloneProofs3.v
theories/CloneProps.v
theories/CoordModel.v
theories/CoordSpec.v
theories/CoordProofs.v
theories/CoordProps.v
theories/AttModel.v
theories/AttSpec.v
theories/AttProofs.v
theories/AttProofs2.v
theories/AttProofs3.v
theories/AttProofs4.v
theories/AttProofs5.v
theories/AttProofs6.v
theories/AttProofs7.v
theories/AttProofs8.v
theories/AttProofs9.v
theories/AttProofs10.v
theories/AttProofs11.v
theories/AttProofs12.v
theories/NameSpec.v
theories/AttProofs14.v
theories/AttProps.v
theories/AttProofs13.v
theories/UnitPrintModel.v
theories/UnitPrintSpec.v
theories/UnitPrintProofs.v
theories/UnitPrintProps.v
theories/IoTypeModel.v
theories/IoTypeSpec.v
theories/IoTypeProofs.v
theories/IoTypeProofs2.v
theories/IoTypeProps.v
theories/CloneProofs4.v
theories/PixelsModel.v
theories/PixelsSpec.v
theories/PixelsProofs.v
theories/PixelsProps.v
theories/LifeModel.v
theories/LifeSpec.v
theories/LifeProofs.v
theories/LifeProofs2.v
theories/LifeProofs3.v
theories/LifeProofs4.v
theories/LifeProps.v
theories/DimModel.v
theories/DimSpec.v
theories/DimProofs.v
theories/DimProofs2.v
theories/DimProofs3.v
theories/DimProofs4.v
theories/DimProofs5.v
theories/DimProps.v
theories/SessionModel.v
theories/SessionSpec.v
theories/SessionProofs.v
theories/SessionProofs2.v
theories/SessionProofs3.v
theories/SessionProofs4.v
theories/SessionProofs5.v
theories/SessionProps.v
theories/PyAttModel.v
theories/PyAttSpec.v
theories/PyAttProofs.v
theories/PyAttProofs2.v
theories/PyAttProofs3.v
theories/PyAttProofs4.v
theories/PyAttProps.v
theories/ParModel.v
theories/ParSpec.v
theories/ParProofs.v
theories/ParProofs2.v
theories/ParProofs3.v
theories/ParProofs4.v
theories/ParProofs5.v
theories/ParProofs6.v
theories/ParProofs7.v
theories/ParProps.v
theories/PyLifeModel.v
theories/PyLifeSpec.v
theories/PyLifeProofs.v
theories/PyLifeProps.v
theories/PyArrayModel.v
theories/PyArraySpec.v
theories/PyArrayProofs.v
theories/PyArrayProps.v
theories/StackModel.v
theories/StackSpec.v
theories/StackProofs.v
theories/StackProofs2.v
theories/StackProofs3.v
theories/StackProofs4.v
theories/StackProps.v
theories/ResumeModel.v
theories/ResumeSpec.v
theories/ResumeProofs.v
theories/ResumeProofs2.v
theories/ResumeProofs3.v
theories/ResumeProofs4.v
theories/ResumeProofs5.v
theories/ResumeProofs6.v
theories/ResumeProps.v
theories/HeadModel.v
theories/HeadSpec.v
theories/HeadProofs.v
theories/HeadProofs2.v
theories/HeadProofs3.v
theories/HeadProofs4.v
theories/HeadProps.v
theories/CrewModel.v
theories/CrewSpec.v
theories/CrewProofs.v
theories/CrewProofs2.v
theories/CrewProofs3.v
theories/CrewProofs4.v
theories/CrewProofs5.v
theories/CrewProofs6.v
theories/CrewProps.v
theories/EigenModel.v
theories/EigenSpec.v
theories/EigenProofs.v
theories/EigenProps.v
theories/ErrModel.v
theories/ErrSpec.v
theories/ErrProofs.v
theories/ErrProps.v
theories/GradFieldModel.v
theories/GradFieldSpec.v
theories/GradFieldProofs.v
theories/GradFieldProps.v
theories/MachModel.v
theories/MachSpec.v
theories/MachProofs.v
theories/MachProps.v
theories/GradExactSpec.v
theories/GradExactProofs.v
theories/GradExactProps.v
theories/MixModel.v
theories/MixSpec.v
theories/MixProofs.v
theories/MixProofs2.v
theories/MixProofs3.v
theories/MixProofs4.v
theories/MixProofs5.v
theories/MixProps.v
theories/PyCommModel.v
theories/PyCommSpec.v
theories/PyCommProofs.v
theories/PyCommProps.v
theories/PyDictModel.v
theories/PyDictSpec.v
theories/PyDictProofs.v
theories/PyDictProps.v
theories/PyArgModel.v
theories/PyArgSpec.v
theories/PyArgProofs.v
theories/PyArgProps.v
theories/PyCollModel.v
theories/PyCollSpec.v
theories/PyCollProofs.v
theories/PyCollProps.v
theories/PyMapModel.v
theories/PyMapSpec.v
theories/PyMapProofs.v
theories/PyMapProps.v
theories/PyFrameModel.v
theories/PyFrameSpec.v
theories/PyFrameProofs.v
theories/PyFrameProps.v
theories/IterDebugModel.v
theories/IterDebugProps.v
theories/MapDebugModel.v
theories/MapDebugProps.v
theories/CommDebugModel.v
theories/CommDebugProps.v
theories/MachIterModel.v
theories/MachIterProps.v
theories/AttAgainSpec.v
theories/AttAgainProofs.v
theories/AttAgainProofs2.v
theories/AttAgainProps.v
theories/MachRangeModel.v
theories/MachRangeProps.v

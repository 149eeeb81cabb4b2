-Q theories Verif
theories/Base.v
theories/EncodeModel.v
theories/EncodeSpec.v
theories/EncodeProof.v
theories/EncodeProps.v
theories/ConvertModel.v
theories/ConvertSpec.v
theories/ConvertProof.v
theories/ConvertProps.v
theories/StringIdModel.v
theories/StringIdSpec.v
theories/StringIdProof.v
theories/StringIdProps.v
theories/Str.v
theories/ExpireModel.v
theories/ExpireSpec.v
theories/ExpireProof.v
theories/ExpireProof2.v
theories/ExpireProof3.v
theories/ExpireProof4.v
theories/ExpireProof5.v
theories/ExpireProof6.v
theories/ExpireProps.v
theories/WalExpireModel.v
theories/WalExpireSpec.v
theories/WalExpireProof.v
theories/WalExpireProps.v
theories/HistExpireModel.v
theories/HistExpireSpec.v
theories/HistExpireProof.v
theories/HistExpireProps.v
theories/NumModel.v
theories/NumSpec.v
theories/NumProof.v
theories/NumProps.v
theories/LsnModel.v
theories/LsnSpec.v
theories/LsnProof.v
theories/LsnProps.v
theories/TimeModel.v
theories/TimeSpec.v
theories/TimeProof.v
theories/TimeProps.v
theories/ParallelModel.v
theories/ParallelSpec.v
theories/ParallelProof.v
theories/ParallelProps.v
theories/SpoolModel.v
theories/SpoolSpec.v
theories/SpoolProof.v
theories/SpoolProps.v
theories/PushModel.v
theories/PushSpec.v
theories/PushProof.v
theories/PushProof2.v
theories/PushProof3.v
theories/PushProps.v
theories/PackModel.v
theories/PackSpec.v
theories/PackProof.v
theories/PackProof2.v
theories/PackProof3.v
theories/PackProps.v
theories/BlockMapModel.v
theories/BlockMapSpec.v
theories/BlockMapProof.v
theories/BlockMapProof2.v
theories/BlockMapProps.v
theories/BlockIncrModel.v
theories/BlockIncrSpec.v
theories/BlockIncrProof.v
theories/BlockCheckProof.v
theories/BlockIncrProps.v
theories/BlockIncrProof2.v
theories/RestoreFileModel.v
theories/RestoreFileSpec.v
theories/RestoreFileProof.v
theories/RestoreFileProof2.v
theories/RestoreFileProof3.v
theories/BlockChainSpec.v
theories/BlockChainProof.v
theories/RestoreFileProps.v
theories/GetModel.v
theories/GetSpec.v
theories/GetProof.v
theories/GetProof2.v
theories/GetProps.v
theories/LabelModel.v
theories/LabelSpec.v
theories/LabelProof.v
theories/LabelProps.v
theories/TimelineModel.v
theories/TimelineSpec.v
theories/TimelineProof.v
theories/TimelineProps.v
theories/LockModel.v
theories/LockSpec.v
theories/LockProof.v
theories/LockProps.v
theories/PageModel.v
theories/PageSpec.v
theories/PageProof.v
theories/PageProof2.v
theories/PageProps.v
theories/ArchiveIdModel.v
theories/ArchiveIdSpec.v
theories/ArchiveIdProof.v
theories/ArchiveIdProps.v
theories/JsonModel.v
theories/JsonSpec.v
theories/JsonProof.v
theories/JsonProof2.v
theories/JsonProof3.v
theories/JsonProof4.v
theories/JsonProof5.v
theories/JsonProof6.v
theories/JsonProof7.v
theories/JsonProof8.v
theories/JsonProps.v
theories/JsonProof9.v
theories/IniModel.v
theories/InfoModel.v
theories/InfoSpec.v
theories/IniProof.v
theories/InfoProof.v
theories/InfoProof2.v
theories/InfoProof3.v
theories/InfoProof4.v
theories/InfoProof5.v
theories/InfoProof6.v
theories/InfoProps.v
theories/JobModel.v
theories/JobSpec.v
theories/JobProof.v
theories/JobProof2.v
theories/JobProof3.v
theories/JobProof4.v
theories/JobProof5.v
theories/JobProof6.v
theories/JobProps.v
theories/IncrModel.v
theories/IncrSpec.v
theories/IncrProof.v
theories/IncrProof2.v
theories/IncrProof3.v
theories/IncrProof4.v
theories/IncrProps.v
theories/ResumeModel.v
theories/ResumeSpec.v
theories/ResumeProof.v
theories/ResumeProof2.v
theories/ResumeProps.v
theories/ManifestPackModel.v
theories/ManifestPackSpec.v
theories/ManifestPackProof.v
theories/ManifestPackProof2.v
theories/ManifestPackProps.v
theories/ManifestModel.v
theories/ManifestSpec.v
theories/ManifestProof.v
theories/ManifestProof2.v
theories/ManifestProof3.v
theories/ManifestProof4.v
theories/ManifestProof5.v
theories/ManifestProof6.v
theories/ManifestProps.v
theories/IoGroupModel.v
theories/IoGroupSpec.v
theories/IoGroupProof.v
theories/IoGroupProof2.v
theories/IoGroupProof3.v
theories/IoGroupExample.v
theories/IoGroupProps.v
theories/ManifestProof7.v
theories/LinkCheckModel.v
theories/LinkCheckSpec.v
theories/LinkCheckProof.v
theories/LinkCheckProof2.v
theories/LinkCheckProof3.v
theories/LinkCheckProps.v
theories/CleanModel.v
theories/CleanSpec.v
theories/CleanProof.v
theories/CleanProof2.v
theories/CleanProof3.v
theories/CleanProof4.v
theories/CleanProof5.v
theories/CleanProof6.v
theories/CleanProof7.v
theories/CleanProof8.v
theories/CleanProps.v
theories/RemapModel.v
theories/RemapSpec.v
theories/RemapProof.v
theories/RemapProof2.v
theories/RemapProof3.v
theories/RemapProof4.v
theories/RemapProof5.v
theories/RemapProof6.v
theories/RemapProps.v
theories/RegModel.v
theories/RegNameModel.v
theories/RegSpec.v
theories/RegProof.v
theories/RegProof2.v
theories/RegProof3.v
theories/RegProof4.v
theories/RegProps.v
theories/ItrModel.v
theories/ItrSpec.v
theories/ItrProof.v
theories/ItrProof2.v
theories/ItrProps.v
theories/SelectModel.v
theories/SelectSpec.v
theories/SelectProof.v
theories/SelectProof2.v
theories/SelectProof3.v
theories/SelectProps.v
theories/SetModel.v
theories/SetSpec.v
theories/SetProof.v
theories/SetProps.v
theories/UnloggedModel.v
theories/UnloggedSpec.v
theories/UnloggedProof.v
theories/UnloggedProof2.v
theories/UnloggedProps.v
theories/BuildModel.v
theories/BuildSpec.v
theories/BuildProof.v
theories/BuildProof2.v
theories/BuildProof3.v
theories/BuildProof4.v
theories/BuildProps.v
theories/VerifyModel.v
theories/VerifySpec.v
theories/VerifyProof.v
theories/VerifyProof2.v
theories/VerifyProof3.v
theories/VerifyProof4.v
theories/VerifyProof5.v
theories/VerifyProof6.v
theories/VerifyProof7.v
theories/VerifyProof8.v
theories/VerifyProof9.v
theories/VerifyProps.v
theories/ListModel.v
theories/ListSpec.v
theories/ListProof.v
theories/ListProof2.v
theories/ListProps.v
theories/OptNameModel.v
theories/OptTableModel.v
theories/OptNameSpec.v
theories/OptNameProof.v
theories/OptNameProof2.v
theories/OptNameProps.v
theories/OptLoadModel.v
theories/OptLoadSpec.v
theories/OptLoadProof.v
theories/OptLoadProof2.v
theories/OptLoadProps.v
theories/OptGroupModel.v
theories/OptGroupSpec.v
theories/OptGroupProof.v
theories/OptGroupProps.v
theories/OptSizeModel.v
theories/OptSizeSpec.v
theories/OptSizeProof.v
theories/OptSizeProof2.v
theories/OptSizeProps.v
theories/OptValueModel.v
theories/OptValueSpec.v
theories/OptValueProof.v
theories/OptValueProof2.v
theories/OptValueProof3.v
theories/OptRuleTableModel.v
theories/OptRuleTableProof.v
theories/OptValueProps.v
theories/WaitModel.v
theories/WaitSpec.v
theories/WaitProof.v
theories/WaitProps.v
theories/FindModel.v
theories/FindSpec.v
theories/FindProof.v
theories/FindProof2.v
theories/FindProps.v
theories/HttpModel.v
theories/HttpSpec.v
theories/HttpProof.v
theories/HttpProof2.v
theories/HttpProof3.v
theories/HttpProof4.v
theories/HttpProof5.v
theories/HttpProps.v
theories/UriModel.v
theories/UriSpec.v
theories/UriProof.v
theories/UriProof2.v
theories/UriProps.v
theories/RecoverModel.v
theories/RecoverSpec.v
theories/RecoverProof.v
theories/RecoverProof2.v
theories/RecoverProps.v
theories/StanzaModel.v
theories/StanzaSpec.v
theories/StanzaProof.v
theories/StanzaProps.v
theories/ControlModel.v
theories/ControlSpec.v
theories/ControlProof.v
theories/ControlProps.v
theories/DeleteModel.v
theories/DeleteSpec.v
theories/DeleteProof.v
theories/DeleteProps.v
theories/ExecModel.v
theories/ExecSpec.v
theories/ExecProof.v
theories/ExecProps.v
theories/MultiModel.v
theories/MultiSpec.v
theories/MultiProof.v
theories/MultiProof2.v
theories/MultiProof3.v
theories/MultiProps.v
theories/RetryModel.v
theories/RetrySpec.v
theories/RetryProof.v
theories/RetryProps.v
theories/AnnotateModel.v
theories/AnnotateSpec.v
theories/AnnotateProof.v
theories/AnnotateProps.v
theories/DbGetModel.v
theories/DbGetSpec.v
theories/DbGetProof.v
theories/DbGetProps.v
theories/RepoPathModel.v
theories/RepoPathSpec.v
theories/RepoPathProof.v
theories/RepoPathProps.v

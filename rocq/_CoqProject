-Q theories Verif
theories/PyBase.v
theories/PyLemmas.v
theories/BijModel.v
theories/BijSpec.v
theories/BijProofs.v
theories/BijProps.v
theories/HDModel.v
theories/HDSpec.v
theories/HDProofs.v
theories/HDProps.v
theories/AddrModel.v
theories/SwitchModel.v
theories/AddrSpec.v
theories/AddrProofs.v
theories/SwitchProofs.v
theories/AddrProps.v
theories/SwitchProps.v
theories/StreamModel.v
theories/StreamSpec.v
theories/StreamProofs.v
theories/StreamProps.v
theories/Utf8Model.v
theories/Utf8Proofs.v
theories/FloatModel.v
theories/FloatSpec.v
theories/FloatProofs.v
theories/PacketModel.v
theories/PacketSpec.v
theories/PacketExec.v
theories/PacketTags.v
theories/PacketRound.v
theories/PacketDeser.v
theories/PacketProgress.v
theories/PacketUnset.v
theories/PacketProps.v
theories/FieldModel.v
theories/FieldSpec.v
theories/FieldProofs.v
theories/FieldProps.v
theories/RegModel.v
theories/RegSpec.v
theories/RegProofs.v
theories/RegProps.v
theories/FrameModel.v
theories/FrameSpec.v
theories/FrameProofs.v
theories/FrameProps.v
theories/TimerModel.v
theories/TimerSpec.v
theories/TimerProofs.v
theories/TimerProps.v
theories/FragModel.v
theories/FragSpec.v
theories/FragProofs.v
theories/FragProps.v
theories/HubModel.v
theories/HubSpec.v
theories/HubProofs.v
theories/HubProps.v
theories/ErrModel.v
theories/ErrSpec.v
theories/ErrProofs.v
theories/ErrProps.v
theories/VnicModel.v
theories/VnicSpec.v
theories/VnicProofs.v
theories/VnicInv.v
theories/VnicSent.v
theories/VnicProps.v
theories/PromModel.v
theories/PromProps.v
theories/WanModel.v
theories/WanSpec.v
theories/WanProofs.v
theories/WanProps.v
theories/StackModel.v
theories/StackSpec.v
theories/StackProofs.v
theories/StackProps.v
theories/ClientModel.v
theories/ClientSpec.v
theories/ClientProofs.v
theories/ClientProps.v
theories/CallbackModel.v
theories/CallbackSpec.v
theories/CallbackProofs.v
theories/CallbackProps.v
theories/LineModel.v
theories/LineSpec.v
theories/LineProofs.v
theories/LineProps.v
theories/SpmpModel.v
theories/SpmpSpec.v
theories/SpmpProofs.v
theories/SpmpProps.v
theories/CipherModel.v
theories/CipherSpec.v
theories/CipherProofs.v
theories/CipherProps.v
theories/PnmsModel.v
theories/PnmsSpec.v
theories/PnmsProofs.v
theories/PnmsProofs2.v
theories/PnmsProofs3.v
theories/PnmsProps.v
theories/DeviceModel.v
theories/DeviceSpec.v
theories/DeviceProofs.v
theories/DeviceProofs2.v
theories/DeviceProofs3.v
theories/DeviceProps.v
theories/WanNetModel.v
theories/WanNetSpec.v
theories/WanNetProofs.v
theories/WanNetProofs2.v
theories/WanNetProofs3.v
theories/WanNetProofs4.v
theories/WanNetProofs5.v
theories/WanNetProps.v
theories/MincopyModel.v
theories/MincopySpec.v
theories/MincopyProofs.v
theories/MincopyProps.v
theories/ObserveModel.v
theories/ObserveSpec.v
theories/ObserveProofs.v
theories/ObserveProofs2.v
theories/ObserveProps.v
theories/CondModel.v
theories/CondSpec.v
theories/CondProofs.v
theories/CondProps.v
theories/ConnModel.v
theories/ConnSpec.v
theories/ConnProofs.v
theories/ConnLive.v
theories/ConnProps.v
theories/FloatProps.v
theories/ConnSvcModel.v
theories/ConnSvcSpec.v
theories/ConnSvcProofs.v
theories/ConnSvcProps.v
theories/CliModel.v
theories/CliSpec.v
theories/CliProofs.v
theories/CliProps.v
theories/LogModel.v
theories/LogSpec.v
theories/LogProofs.v
theories/LogProps.v
theories/IniModel.v
theories/IniSpec.v
theories/IniProofs.v
theories/IniProofs2.v
theories/IniProofs3.v
theories/IniPnms.v
theories/IniProps.v
theories/ConfModel.v
theories/ConfSpec.v
theories/ConfProofs.v
theories/ConfProofs2.v
theories/ConfProofs3.v
theories/ConfProofs4.v
theories/ConfProps.v
theories/ConfProps2.v
theories/MockModel.v
theories/MockSpec.v
theories/MockProofs.v
theories/MockProofs2.v
theories/MockProofs3.v
theories/MockProofs4.v
theories/MockProofs5.v
theories/MockProofs6.v
theories/MockProps.v
theories/MockProps2.v
theories/MockProofs7.v
theories/ProcModel.v
theories/ProcSpec.v
theories/ProcProofs.v
theories/ProcProofs2.v
theories/ProcProofs3.v
theories/ProcProps.v
theories/WanApiModel.v
theories/WanApiSpec.v
theories/WanApiProofs.v
theories/WanApiProofs2.v
theories/WanApiProps.v
theories/WanApiProps2.v
theories/USwitchModel.v
theories/USwitchSpec.v
theories/USwitchProofs.v
theories/USwitchProofs2.v
theories/USwitchProofs3.v
theories/USwitchProps.v
theories/EchoModel.v
theories/EchoSpec.v
theories/EchoProofs.v
theories/EchoProps.v
theories/VnicApiModel.v
theories/VnicApiSpec.v
theories/VnicApiProofs.v
theories/VnicApiProps.v
theories/VsvcModel.v
theories/VsvcSpec.v
theories/VsvcProofs.v
theories/VsvcProps.v
theories/ThruModel.v
theories/ThruSpec.v
theories/ThruProofs.v
theories/ThruProps.v
theories/StatModel.v
theories/StatSpec.v
theories/StatProofs.v
theories/StatProps.v
theories/FmtModel.v
theories/FmtSpec.v
theories/FmtProofs.v
theories/FmtProps.v
theories/GenModel.v
theories/GenSpec.v
theories/GenProps.v

-Q theories Verif

theories/Lib/Base.v
theories/Model/Analog.v
theories/Model/BankEncoder.v
theories/Model/BiClient.v
theories/Model/BinaryCb.v
theories/Model/Boost.v
theories/Model/Bridge.v
theories/Model/Browser.v
theories/Model/CallbackParams.v
theories/Model/Channels.v
theories/Model/Checks.v
theories/Model/Choices.v
theories/Model/Client.v
theories/Model/CodeTab.v
theories/Model/Codec.v
theories/Model/Connect.v
theories/Model/Controller.v
theories/Model/Custom.v
theories/Model/Detect.v
theories/Model/Device.v
theories/Model/Displays.v
theories/Model/Edit.v
theories/Model/Editor.v
theories/Model/EffectButton.v
theories/Model/Effects.v
theories/Model/Elements.v
theories/Model/Emulator.v
theories/Model/Encoder.v
theories/Model/Explore.v
theories/Model/Fade.v
theories/Model/Hardware.v
theories/Model/Imports.v
theories/Model/Inputs.v
theories/Model/KemperMappings.v
theories/Model/Label.v
theories/Model/LabelCallback.v
theories/Model/Layout.v
theories/Model/Leds.v
theories/Model/Local.v
theories/Model/Mapping.v
theories/Model/Measure.v
theories/Model/Memory.v
theories/Model/Midi.v
theories/Model/Monitor.v
theories/Model/Morph.v
theories/Model/Names.v
theories/Model/Notices.v
theories/Model/Offer.v
theories/Model/PageColors.v
theories/Model/Pager.v
theories/Model/Pages.v
theories/Model/Period.v
theories/Model/Popup.v
theories/Model/Preview.v
theories/Model/Properties.v
theories/Model/Protocol.v
theories/Model/Providers.v
theories/Model/PushButton.v
theories/Model/Queue.v
theories/Model/Rig.v
theories/Model/RigDisplay.v
theories/Model/Routing.v
theories/Model/Runner.v
theories/Model/Scan.v
theories/Model/Screens.v
theories/Model/Session.v
theories/Model/Settings.v
theories/Model/Startup.v
theories/Model/Storage.v
theories/Model/Strobe.v
theories/Model/Switch.v
theories/Model/System.v
theories/Model/Tabs.v
theories/Model/Tempo.v
theories/Model/Traffic.v
theories/Model/Tuner.v
theories/Model/TunerMode.v
theories/Model/Url.v
theories/Model/Values.v
theories/Model/VirtualParams.v
theories/Model/VirtualProtocol.v
theories/Model/Wrap.v
theories/Spec/Analog.v
theories/Spec/BankEncoder.v
theories/Spec/BiClient.v
theories/Spec/BinaryCb.v
theories/Spec/Boost.v
theories/Spec/Bridge.v
theories/Spec/Browser.v
theories/Spec/CallbackParams.v
theories/Spec/Channels.v
theories/Spec/Checks.v
theories/Spec/Choices.v
theories/Spec/Client.v
theories/Spec/ClientSafe.v
theories/Spec/CodeTab.v
theories/Spec/Codec.v
theories/Spec/Connect.v
theories/Spec/Controller.v
theories/Spec/Custom.v
theories/Spec/Detect.v
theories/Spec/Device.v
theories/Spec/Displays.v
theories/Spec/Edit.v
theories/Spec/Editor.v
theories/Spec/EffectButton.v
theories/Spec/Effects.v
theories/Spec/Elements.v
theories/Spec/Emulator.v
theories/Spec/Encoder.v
theories/Spec/Explore.v
theories/Spec/Fade.v
theories/Spec/Hardware.v
theories/Spec/Imports.v
theories/Spec/Inputs.v
theories/Spec/KemperMappings.v
theories/Spec/Label.v
theories/Spec/LabelCallback.v
theories/Spec/Layout.v
theories/Spec/Leds.v
theories/Spec/Local.v
theories/Spec/Mapping.v
theories/Spec/Measure.v
theories/Spec/Memory.v
theories/Spec/Monitor.v
theories/Spec/Morph.v
theories/Spec/Names.v
theories/Spec/Notices.v
theories/Spec/Offer.v
theories/Spec/PageColors.v
theories/Spec/Pager.v
theories/Spec/Pages.v
theories/Spec/Period.v
theories/Spec/Popup.v
theories/Spec/Preview.v
theories/Spec/Properties.v
theories/Spec/Protocol.v
theories/Spec/Providers.v
theories/Spec/PushButton.v
theories/Spec/Queue.v
theories/Spec/Rig.v
theories/Spec/RigDisplay.v
theories/Spec/RigMorph.v
theories/Spec/Routing.v
theories/Spec/Runner.v
theories/Spec/Scan.v
theories/Spec/Screens.v
theories/Spec/Session.v
theories/Spec/Settings.v
theories/Spec/Startup.v
theories/Spec/Storage.v
theories/Spec/Strobe.v
theories/Spec/Switch.v
theories/Spec/System.v
theories/Spec/Tabs.v
theories/Spec/Tempo.v
theories/Spec/Traffic.v
theories/Spec/Tuner.v
theories/Spec/TunerMode.v
theories/Spec/Url.v
theories/Spec/Values.v
theories/Spec/VirtualParams.v
theories/Spec/VirtualProtocol.v
theories/Spec/VirtualRig.v
theories/Spec/Wire.v
theories/Spec/Wrap.v
theories/Proofs/Analog.v
theories/Proofs/BankEncoder.v
theories/Proofs/BiClient.v
theories/Proofs/BinaryCb.v
theories/Proofs/BridgeCodec.v
theories/Proofs/BridgeFifo.v
theories/Proofs/BridgeForget.v
theories/Proofs/BridgeKept.v
theories/Proofs/BridgeNet.v
theories/Proofs/BridgeOrder.v
theories/Proofs/Checks.v
theories/Proofs/Client.v
theories/Proofs/ClientDep.v
theories/Proofs/ClientHist.v
theories/Proofs/ClientOps.v
theories/Proofs/ClientPerm.v
theories/Proofs/ClientProps.v
theories/Proofs/ClientSafe.v
theories/Proofs/ClientTotal.v
theories/Proofs/Codec.v
theories/Proofs/Controller.v
theories/Proofs/Device.v
theories/Proofs/Displays.v
theories/Proofs/Edit.v
theories/Proofs/Editor.v
theories/Proofs/EffectButton.v
theories/Proofs/Effects.v
theories/Proofs/Emulator.v
theories/Proofs/Encoder.v
theories/Proofs/Explore.v
theories/Proofs/Imports.v
theories/Proofs/KemperMappings.v
theories/Proofs/Label.v
theories/Proofs/Layout.v
theories/Proofs/Leds.v
theories/Proofs/Local.v
theories/Proofs/Mapping.v
theories/Proofs/Measure.v
theories/Proofs/Morph.v
theories/Proofs/Pager.v
theories/Proofs/Period.v
theories/Proofs/Preview.v
theories/Proofs/Properties.v
theories/Proofs/Protocol.v
theories/Proofs/PushButton.v
theories/Proofs/Rig.v
theories/Proofs/RigDisplay.v
theories/Proofs/RigLabel.v
theories/Proofs/RigMorph.v
theories/Proofs/Routing.v
theories/Proofs/Runner.v
theories/Proofs/Screens.v
theories/Proofs/Session.v
theories/Proofs/Settings.v
theories/Proofs/Storage.v
theories/Proofs/Strobe.v
theories/Proofs/Switch.v
theories/Proofs/System.v
theories/Proofs/SystemClient.v
theories/Proofs/Tempo.v
theories/Proofs/Tuner.v
theories/Proofs/TunerMode.v
theories/Proofs/VirtualParams.v
theories/Proofs/VirtualProtocol.v
theories/Proofs/VirtualRig.v
theories/Proofs/VirtualTempo.v
theories/Proofs/Wire.v
theories/Props/Analog.v
theories/Props/BankEncoder.v
theories/Props/BiClient.v
theories/Props/BinaryCb.v
theories/Props/Boost.v
theories/Props/Bridge.v
theories/Props/BridgeFifo.v
theories/Props/BridgeForget.v
theories/Props/Browser.v
theories/Props/CallbackParams.v
theories/Props/Channels.v
theories/Props/Checks.v
theories/Props/Choices.v
theories/Props/Client.v
theories/Props/ClientSafe.v
theories/Props/CodeTab.v
theories/Props/Codec.v
theories/Props/Connect.v
theories/Props/Controller.v
theories/Props/Custom.v
theories/Props/Detect.v
theories/Props/Device.v
theories/Props/Displays.v
theories/Props/Edit.v
theories/Props/Editor.v
theories/Props/EffectButton.v
theories/Props/Effects.v
theories/Props/Elements.v
theories/Props/Emulator.v
theories/Props/Encoder.v
theories/Props/Explore.v
theories/Props/Fade.v
theories/Props/Hardware.v
theories/Props/Imports.v
theories/Props/Inputs.v
theories/Props/KemperMappings.v
theories/Props/Label.v
theories/Props/LabelCallback.v
theories/Props/Layout.v
theories/Props/Leds.v
theories/Props/Local.v
theories/Props/Mapping.v
theories/Props/Measure.v
theories/Props/Memory.v
theories/Props/Monitor.v
theories/Props/Morph.v
theories/Props/Names.v
theories/Props/Notices.v
theories/Props/Offer.v
theories/Props/PageColors.v
theories/Props/Pager.v
theories/Props/Pages.v
theories/Props/Period.v
theories/Props/Popup.v
theories/Props/Preview.v
theories/Props/Properties.v
theories/Props/Protocol.v
theories/Props/Providers.v
theories/Props/PushButton.v
theories/Props/Queue.v
theories/Props/Rig.v
theories/Props/RigDisplay.v
theories/Props/RigMorph.v
theories/Props/Routing.v
theories/Props/Runner.v
theories/Props/Scan.v
theories/Props/Screens.v
theories/Props/Session.v
theories/Props/Settings.v
theories/Props/Startup.v
theories/Props/Storage.v
theories/Props/Strobe.v
theories/Props/Switch.v
theories/Props/System.v
theories/Props/Tabs.v
theories/Props/Tempo.v
theories/Props/Traffic.v
theories/Props/Tuner.v
theories/Props/TunerMode.v
theories/Props/Url.v
theories/Props/Values.v
theories/Props/VirtualParams.v
theories/Props/VirtualProtocol.v
theories/Props/VirtualRig.v
theories/Props/Wire.v
theories/Props/Wrap.v

-Q theories Verif
theories/Py.v
theories/Py_lemmas.v
theories/Model_Bencode.v
theories/Spec_Bencode.v
theories/Proof_Bencode.v
theories/Prop_Bencode.v
theories/Model_Packets.v
theories/Spec_Packets.v
theories/Proof_Packets.v
theories/Prop_Packets.v
theories/Dict_lemmas.v
theories/Model_Client.v
theories/Spec_Client.v
theories/Proof_Client.v
theories/Proof_Client2.v
theories/Proof_Client3.v
theories/Proof_Client4.v
theories/Proof_Client5.v
theories/Proof_Client6.v
theories/Proof_Client7.v
theories/Proof_Client8.v
theories/Prop_Client.v
theories/Model_Limiter.v
theories/Spec_Limiter.v
theories/Proof_Limiter.v
theories/Prop_Limiter.v
theories/Model_Services.v
theories/Spec_Services.v
theories/Proof_Services.v
theories/Proof_Services2.v
theories/Proof_Services3.v
theories/Prop_Services.v
theories/Model_Process.v
theories/Spec_Process.v
theories/Proof_Process.v
theories/Proof_Process2.v
theories/Prop_Process.v
theories/Model_Manager.v
theories/Spec_Manager.v
theories/Proof_Manager.v
theories/Prop_Manager.v
theories/Model_Forward.v
theories/Spec_Forward.v
theories/Proof_Forward.v
theories/Proof_Forward2.v
theories/Proof_Forward3.v
theories/Prop_Forward.v
theories/Model_Path.v
theories/Model_Remote.v
theories/Spec_Remote.v
theories/Proof_Path.v
theories/Proof_Remote.v
theories/Proof_Remote2.v
theories/Proof_Remote3.v
theories/Proof_Remote4.v
theories/Proof_Remote5.v
theories/Proof_Remote6.v
theories/Proof_Remote7.v
theories/Proof_Remote8.v
theories/Proof_Remote9.v
theories/Prop_Remote.v
theories/Model_Scan.v
theories/Spec_Scan.v
theories/Proof_Scan.v
theories/Proof_Scan2.v
theories/Proof_Scan3.v
theories/Proof_Scan4.v
theories/Proof_Scan5.v
theories/Prop_Scan.v
theories/Model_Rpc.v
theories/Spec_Rpc.v
theories/Proof_Rpc.v
theories/Proof_Rpc2.v
theories/Proof_Rpc3.v
theories/Prop_Rpc.v
theories/Model_Agent.v
theories/Spec_Agent.v
theories/Proof_Agent.v
theories/Proof_Agent2.v
theories/Proof_Agent3.v
theories/Prop_Agent.v
theories/Model_Tools.v
theories/Spec_Tools.v
theories/Proof_Tools.v
theories/Prop_Tools.v
theories/Model_App.v
theories/Spec_App.v
theories/Proof_App.v
theories/Prop_App.v
theories/Model_Window.v
theories/Spec_Window.v
theories/Proof_Window.v
theories/Prop_Window.v
theories/Model_Threads.v
theories/Spec_Threads.v
theories/Proof_Threads.v
theories/Prop_Threads.v
theories/Spec_Early.v
theories/Proof_Early.v
theories/Prop_Early.v
theories/Model_Start.v
theories/Spec_Start.v
theories/Proof_Start.v
theories/Prop_Start.v
theories/Model_Sync.v
theories/Spec_Sync.v
theories/Proof_Sync.v
theories/Prop_Sync.v
theories/Model_System.v
theories/Spec_System.v
theories/Proof_System.v
theories/Proof_System2.v
theories/Proof_System3.v
theories/Proof_System4.v
theories/Proof_System5.v
theories/Prop_System.v
theories/Model_Links.v
theories/Spec_Links.v
theories/Proof_Links.v
theories/Proof_Links2.v
theories/Proof_Links3.v
theories/Proof_Links4.v
theories/Prop_Links.v
theories/Model_Ids.v
theories/Spec_Ids.v
theories/Proof_Ids.v
theories/Prop_Ids.v
theories/Proof_Through.v
theories/Spec_Outbound.v
theories/Proof_Outbound.v
theories/Proof_Outbound2.v
theories/Prop_Outbound.v
theories/Model_Relay.v
theories/Spec_Relay.v
theories/Proof_Relay.v
theories/Proof_Relay2.v
theories/Proof_Relay3.v
theories/Prop_Relay.v
theories/Model_Opening.v
theories/Spec_Opening.v
theories/Proof_Opening.v
theories/Proof_Opening2.v
theories/Prop_Opening.v
theories/Model_Child.v
theories/Spec_Child.v
theories/Proof_Child.v
theories/Prop_Child.v
theories/Model_Shutdown.v
theories/Spec_Shutdown.v
theories/Proof_Shutdown.v
theories/Prop_Shutdown.v
theories/Model_Locks.v
theories/Spec_Locks.v
theories/Proof_Locks.v
theories/Prop_Locks.v
theories/Model_Depth.v
theories/Spec_Depth.v
theories/Proof_Depth.v
theories/Prop_Depth.v
theories/Spec_Queue.v
theories/Proof_Queue.v
theories/Prop_Queue.v
theories/Spec_Takeover.v
theories/Proof_Takeover.v
theories/Prop_Takeover.v
theories/Model_Handle.v
theories/Spec_Handle.v
theories/Proof_Handle.v
theories/Prop_Handle.v
theories/Model_Logging.v
theories/Spec_Logging.v
theories/Proof_Logging.v
theories/Prop_Logging.v
theories/Model_Cmdline.v
theories/Spec_Cmdline.v
theories/Proof_Cmdline.v
theories/Prop_Cmdline.v
theories/Spec_Sizes.v
theories/Proof_Sizes.v
theories/Prop_Sizes.v
theories/Model_Meta.v
theories/Spec_Meta.v
theories/Proof_Meta.v
theories/Prop_Meta.v
theories/Spec_Ending.v
theories/Proof_Ending.v
theories/Prop_Ending.v

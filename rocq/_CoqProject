-Q theories Verif
theories/Base.v
theories/ListLemmas.v
theories/FloatInt.v
theories/Messaging_Model.v
theories/Messaging_Spec.v
theories/Messaging_Proofs.v
theories/Messaging_Proofs2.v
theories/Messaging_Proofs3.v
theories/Messaging_Proofs4.v
theories/Props_Messaging.v
theories/Codec_Model.v
theories/Codec_Spec.v
theories/Codec_Proofs.v
theories/Props_Codec.v
theories/Projection_Model.v
theories/Projection_Spec.v
theories/Projection_Proofs.v
theories/Props_Projection.v
theories/Core_Model.v
theories/Core_Spec.v
theories/Core_Proofs.v
theories/Props_Core.v
theories/Delta_Model.v
theories/Delta_Spec.v
theories/Delta_Proofs.v
theories/Delta_Proofs2.v
theories/Props_Delta.v
theories/Neuron_Model.v
theories/Neuron_Spec.v
theories/Neuron_Proofs.v
theories/Neuron_Proofs2.v
theories/Neuron_Proofs3.v
theories/Props_Neuron.v
theories/Stdp_Model.v
theories/Stdp_Spec.v
theories/Stdp_Proofs.v
theories/Stdp_Proofs2.v
theories/Props_Stdp.v
theories/Pool_Model.v
theories/Pool_Spec.v
theories/Pool_Proofs.v
theories/Pool_Proofs2.v
theories/Props_Pool.v
theories/Pipeline_Model.v
theories/Pipeline_Spec.v
theories/Pipeline_Proofs.v
theories/Pipeline_Proofs2.v
theories/Props_Pipeline.v
theories/Framework_Model.v
theories/Framework_Spec.v
theories/Framework_Proofs.v
theories/Props_Framework.v
theories/Handlers_Model.v
theories/Handlers_Spec.v
theories/Handlers_Proofs.v
theories/Props_Handlers.v
theories/FloatReal.v
theories/Connect_Model.v
theories/Connect_Spec.v
theories/Connect_Proofs.v
theories/Props_Connect.v
theories/Classify_Model.v
theories/Classify_Spec.v
theories/Classify_Proofs.v
theories/Classify_Proofs2.v
theories/Metrics_Proofs.v
theories/Props_Classify.v
theories/Props_Metrics.v
theories/Sonata_Model.v
theories/Sonata_Spec.v
theories/Sonata_Proofs.v
theories/Sonata_Proofs2.v
theories/Props_Sonata.v
theories/Mt_Model.v
theories/Mt_Spec.v
theories/Mt_Proofs.v
theories/Mt_Proofs2.v
theories/Props_Mt.v
theories/Additive_Model.v
theories/Additive_Spec.v
theories/Additive_Proofs.v
theories/Additive_Proofs2.v
theories/Props_Additive.v
theories/Storage_Model.v
theories/Storage_Spec.v
theories/Storage_Proofs.v
theories/Storage_Proofs2.v
theories/Storage_Proofs3.v
theories/Props_Storage.v
theories/Stdp_Spec2.v
theories/Stdp_Proofs3.v
theories/Props_Stdp2.v
theories/Pool_Spec2.v
theories/Pool_Proofs3.v
theories/Props_Pool2.v
theories/Zmq_Model.v
theories/Zmq_Spec.v
theories/Zmq_Proofs.v
theories/Zmq_Proofs2.v
theories/Props_Zmq.v
theories/Monitor_Model.v
theories/Monitor_Spec.v
theories/Monitor_Proofs.v
theories/Monitor_Proofs2.v
theories/Props_Monitor.v
theories/Normalize_Model.v
theories/Normalize_Proofs.v
theories/Props_Normalize.v
theories/Train_Model.v
theories/Train_Proofs.v
theories/Net_Model.v
theories/Net_Spec.v
theories/Net_Proofs.v
theories/Net_Proofs2.v
theories/Net_Proofs3.v
theories/Net_Proofs4.v
theories/Net_Proofs5.v
theories/Props_Net.v
theories/Props_Net2.v
theories/Sched_Model.v
theories/Sched_Proofs.v
theories/Props_Sched.v
theories/MtNet_Model.v
theories/MtNet_Spec.v
theories/MtNet_Proofs.v
theories/MtNet_Proofs2.v
theories/MtNet_Proofs3.v
theories/Props_MtNet.v
theories/Gpu_Model.v
theories/Gpu_Spec.v
theories/Gpu_Proofs.v
theories/Gpu_Proofs2.v
theories/Gpu_Proofs3.v
theories/Props_Gpu.v
theories/GpuBus_Model.v
theories/GpuBus_Spec.v
theories/GpuBus_Proofs.v
theories/GpuBus_Proofs2.v
theories/Props_GpuBus.v
theories/GpuNet_Model.v
theories/GpuNet_Spec.v
theories/GpuNet_Proofs.v
theories/GpuNet_Proofs2.v
theories/Props_GpuNet.v
theories/GpuStep_Model.v
theories/GpuStep_Spec.v
theories/GpuStep_Proofs.v
theories/GpuStep_Proofs2.v
theories/Props_GpuStep.v
theories/Device_Model.v
theories/Device_Proofs.v
theories/Props_Device.v
theories/Exec_Model.v
theories/Exec_Spec.v
theories/Exec_Proofs.v
theories/Exec_Proofs2.v
theories/Exec_Proofs3.v
theories/Exec_Proofs4.v
theories/Exec_Proofs5.v
theories/Exec_Proofs6.v
theories/Props_Exec.v
theories/Load_Model.v
theories/Load_Spec.v
theories/Load_Proofs.v
theories/Load_Proofs2.v
theories/Load_Proofs3.v
theories/Load_Proofs4.v
theories/Load_Proofs5.v
theories/Props_Load.v
theories/Safe_Spec.v
theories/Safe_Proofs.v
theories/Safe_Proofs2.v
theories/Props_Safe.v
theories/Front_Spec.v
theories/Props_Front.v
theories/MtSafe_Spec.v
theories/MtSafe_Proofs.v
theories/Props_MtSafe.v
theories/Valid_Model.v
theories/Valid_Spec.v
theories/Props_Valid.v
theories/Props_ExecSafe.v
theories/Same_Spec.v
theories/Same_Proofs.v
theories/Same_Proofs2.v
theories/Same_Proofs3.v
theories/Same_Proofs4.v
theories/Props_Same.v
theories/Quant_Model.v
theories/Quant_Spec.v
theories/Quant_Proofs.v
theories/Quant_Proofs2.v
theories/Quant_Proofs3.v
theories/Quant_Proofs4.v
theories/Quant_Proofs5.v
theories/Props_Quant.v
theories/Resource_Proofs.v
theories/Props_Resource.v
theories/Infer_Model.v
theories/Infer_Spec.v
theories/Infer_Proofs.v
theories/Props_Infer.v
theories/Graph_Model.v
theories/Graph_Spec.v
theories/Graph_Proofs.v
theories/Graph_Proofs2.v
theories/Graph_Proofs3.v
theories/Props_Graph.v
theories/Raise_Model.v
theories/Raise_Spec.v
theories/Raise_Proofs.v
theories/Props_Raise.v
theories/MtExec_Model.v
theories/MtExec_Spec.v
theories/MtExec_Proofs.v
theories/MtExec_Proofs2.v
theories/MtExec_Proofs3.v
theories/Props_MtExec.v
theories/Client_Model.v
theories/Client_Spec.v
theories/Client_Proofs.v
theories/Props_Client.v
theories/Build_Model.v
theories/Build_Spec.v
theories/Build_Proofs.v
theories/Props_Build.v
theories/MtExecSafe_Spec.v
theories/MtExecSafe_Proofs.v
theories/Props_MtExecSafe.v
theories/Mnist_Model.v
theories/Mnist_Spec.v
theories/Mnist_Proofs.v
theories/Props_Mnist.v
theories/Again_Spec.v
theories/Again_Proofs.v
theories/Props_Again.v

-Q theories Verif
theories/Base.v
theories/ConstTime.v
theories/PConstTime.v
theories/Prims.v
theories/HashDomains.v
theories/Wire.v
theories/Server.v
theories/Protocol.v
theories/Wp.v
theories/Inv.v
theories/Rules.v
theories/Calls.v
theories/PollRules.v
theories/System.v
theories/Trans.v
theories/Spec.v
theories/Transcript.v
theories/Demo.v
theories/PSafety.v
theories/PReplay.v
theories/PPoll.v
theories/PTiming.v
theories/PNotice.v
theories/Forward.v
theories/PRetransmit.v
theories/PCookie.v
theories/PWire.v
theories/PHandshake.v
theories/PDomains.v
theories/PTranscript.v
theories/PAgree.v
theories/Ciphers.v
theories/PCiphers.v
theories/Fds.v
theories/PFds.v
theories/Lpe.v
theories/PLpe.v
theories/PRespHello.v
theories/Builder.v
theories/PBuilder.v
theories/AppNet.v
theories/PAppNet.v
theories/AppIo.v
theories/PAppIo.v
theories/App.v
theories/PApp.v
theories/PAppLive.v
theories/AppRecv.v
theories/PAppRecv.v
theories/Api.v
theories/PApi.v
theories/ApiConn.v
theories/PApiConn.v
theories/Broker.v
theories/PBroker.v
theories/SecretPool.v
theories/PSecretPool.v
theories/Files.v
theories/PFiles.v
theories/Config.v
theories/PConfig.v
theories/Rp.v
theories/PRp.v
theories/Janitor.v
theories/PJanitor.v
theories/Values.v
theories/PValues.v
theories/Alloc.v
theories/PAlloc.v
theories/Buffers.v
theories/PBuffers.v
theories/Sym.v
theories/SymSec.v
theories/PSym.v
theories/PSymLink.v
theories/SymRun.v
theories/PSymRun.v
theories/PSymKeys.v
theories/PSymOnce.v
theories/PExpiry.v
theories/Spawn.v
theories/PSpawn.v
theories/Reading.v
theories/PReading.v
theories/WgConfig.v
theories/PWgConfig.v
theories/TomlConfig.v
theories/PTomlConfig.v
theories/PLoss.v
theories/PEndToEnd.v
theories/Main.v
theories/PMain.v
theories/PDisrupt.v
theories/PPassive.v
theories/PNeeded.v
theories/Socks.v
theories/PSocks.v
theories/GenTypes.v
theories/PGenTypes.v
theories/Handler.v
theories/PHandler.v
theories/PNonce.v
theories/Stall.v
theories/PStall.v
theories/Commit.v
theories/PCommit.v
theories/PThrough.v
theories/PWireguard.v

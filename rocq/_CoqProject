-Q theories Verif
theories/Bytes.v
theories/Io.v
theories/Http.v
theories/Httparse.v
theories/ChunkedEnc.v
theories/ServerEnc.v
theories/BodyM.v
theories/Glitch.v
theories/ChunkedDec.v
theories/ServerDec.v
theories/Accept.v
theories/SpecIo.v
theories/SpecEnv.v
theories/Lemmas.v
theories/Proofs_Copy.v
theories/SpecText.v
theories/Proofs_Text.v
theories/SpecChunked.v
theories/Proofs_Parse.v
theories/Proofs_Buf.v
theories/SpecReq.v
theories/Proofs_ReqHead.v
theories/Proofs_ReqParse.v
theories/Proofs_ServerDec.v
theories/Proofs_Dec.v
theories/Reads.v
theories/Proofs_DecMsg.v
theories/Proofs_ServerEnc.v
theories/SpecHead.v
theories/SpecResponse.v
theories/Proofs_Head.v
theories/Proofs_Map.v
theories/Proofs_DecReads.v
theories/Proofs_Send.v
theories/Proofs_Vast.v
theories/Proofs_Begin.v
theories/SpecServer.v
theories/Proofs_Length.v
theories/Proofs_Body.v
theories/Proofs_Accept.v
theories/Proofs_Request.v
theories/Examples_Response.v
theories/Properties_Response.v
theories/Examples_Dec.v
theories/Properties_Decoder.v
theories/Examples_Request.v
theories/Properties_Request.v
theories/Proofs_Hand.v
theories/Proofs_Turns.v
theories/Proofs_Lost.v
theories/RespWriter.v
theories/Cors.v
theories/Router.v
theories/Identity.v
theories/Timeout.v
theories/SpecGlitch.v
theories/Proofs_Glitch.v
theories/Examples_Accept.v
theories/Properties_Accept.v
theories/Properties_Glitch.v
theories/SpecWriter.v
theories/Proofs_Writer.v
theories/Proofs_Sse.v
theories/Properties_Writer.v
theories/Properties_Sse.v
theories/SpecCors.v
theories/Proofs_Cors.v
theories/Properties_Cors.v
theories/SpecRouter.v
theories/Proofs_Router.v
theories/Examples_Router.v
theories/Properties_Router.v
theories/SpecIdentity.v
theories/Proofs_Identity.v
theories/Examples_Identity.v
theories/Properties_Identity.v
theories/Properties_Cookie.v
theories/Properties_CorsWire.v
theories/Proofs_Broken.v
theories/Properties_Broken.v
theories/Properties_Reuse.v
theories/BodyRead.v
theories/SpecBody.v
theories/Proofs_BodyRead.v
theories/Properties_Body.v
theories/Client.v
theories/SpecClient.v
theories/SpecCall.v
theories/Proofs_Client.v
theories/Proofs_ClientDec.v
theories/Proofs_RoundTrip.v
theories/Proofs_Vocab.v
theories/Proofs_Flush.v
theories/Properties_Text.v
theories/Properties_Flush.v
theories/Proofs_ClientUse.v
theories/Examples_Client.v
theories/Properties_Client.v
theories/Relay.v
theories/Proofs_Relay.v
theories/Proofs_RelayReq.v
theories/Proofs_Echo.v
theories/Proofs_Report.v
theories/Properties_Relay.v
theories/Properties_Echo.v
theories/Properties_Abort.v
theories/Proofs_Stream.v
theories/Proofs_Prompt.v
theories/Proofs_InTime.v
theories/Properties_Stream.v
theories/Proofs_Limit.v
theories/Properties_Limit.v
theories/Proofs_Causal.v
theories/Properties_Causal.v
theories/Properties_Http.v
theories/Proofs_Healthy.v
theories/Proofs_Robust.v
theories/Properties_Robust.v
theories/Proofs_Untimed.v
theories/Properties_Stall.v
theories/Proofs_Call.v
theories/Proofs_Reuse.v
theories/Properties_Call.v
theories/Proofs_ClientStream.v
theories/Properties_ClientStream.v
theories/SpecPool.v
theories/Proofs_Pool.v
theories/Properties_Pool.v
theories/Proofs_DecFail.v
theories/Properties_Failing.v
theories/SpecLax.v
theories/Proofs_Sound.v
theories/Properties_Sound.v
theories/Proofs_Long.v
theories/Properties_Long.v
theories/Examples_Repo.v
theories/BufReads.v
theories/Proofs_BufReads.v
theories/Proofs_Lines.v
theories/Properties_BufReads.v
theories/Forward.v
theories/Proofs_Forward.v
theories/Properties_Forward.v
theories/Proofs_Proxy.v
theories/Properties_Proxy.v
theories/Proofs_Recast.v
theories/Proofs_Over.v
theories/Properties_Recast.v
theories/ClientErr.v
theories/SpecErr.v
theories/Proofs_ClientErr.v
theories/Properties_ClientErr.v
theories/SpecAccount.v
theories/Proofs_Account.v
theories/Properties_Account.v
theories/Proofs_Regroup.v
theories/Properties_Regroup.v
theories/SpecCorsFields.v
theories/Proofs_CorsFields.v
theories/Properties_CorsFields.v
theories/SpecProfile.v
theories/Proofs_Profile.v
theories/Properties_Profile.v
theories/Proofs_Fuel.v

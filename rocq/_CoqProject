-Q theories Verif
theories/Base.v
theories/M_Src.v
theories/M_Decode.v
theories/M_HeaderMap.v
theories/M_Encode.v
theories/M_Httparse.v
theories/S_Transport.v
theories/S_Chunked.v
theories/S_Send.v
theories/L_Decode.v
theories/L_Chunked.v
theories/L_Encode.v
theories/L_Encode2.v
theories/L_Body.v
theories/P_Body.v
theories/M_Headers.v
theories/M_Role.v
theories/S_Framing.v
theories/L_Headers.v
theories/L_Framing.v
theories/P_Framing.v
theories/M_RoleEncode.v
theories/S_Head.v
theories/L_RoleEncode.v
theories/L_RoleEncode2.v
theories/L_Wire.v
theories/L_Server.v
theories/P_Role.v
theories/L_Client.v
theories/L_Fold.v
theories/P_Client.v
theories/M_Buf.v
theories/M_WriteBuf.v
theories/S_Buf.v
theories/L_Buf.v
theories/L_WriteBuf.v
theories/P_Write.v
theories/M_Read.v
theories/S_Read.v
theories/L_Read.v
theories/P_Read.v
theories/M_Conn.v
theories/M_Dispatch.v
theories/S_Conn.v
theories/L_Conn.v
theories/L_Moves.v
theories/L_ConnS.v
theories/L_ConnC.v
theories/L_Ext.v
theories/L_Ka.v
theories/L_Exch.v
theories/P_Conn.v
theories/S_Client.v
theories/L_Outcome.v
theories/P_Requests.v
theories/L_Stream.v
theories/P_Stream.v
theories/M_H2Headers.v
theories/P_H2Headers.v
theories/M_ReadBuf.v
theories/P_ReadBuf.v
theories/M_Date.v
theories/P_Date.v
theories/M_Watch.v
theories/P_Watch.v
theories/M_Ping.v
theories/P_Ping.v
theories/M_H2Body.v
theories/P_H2Body.v
theories/M_H2Tunnel.v
theories/P_H2Tunnel.v
theories/M_Incoming.v
theories/P_Incoming.v
theories/L_BodyTx.v
theories/P_BodyTx.v
theories/L_Timer.v
theories/P_Timer.v
theories/L_Done.v
theories/L_Return.v
theories/L_Report.v
theories/L_View.v
theories/P_Graceful.v
theories/P_Report.v
theories/P_View.v
theories/P_Eof.v
theories/P_Solicited.v
theories/M_H2Server.v
theories/P_H2Server.v
theories/M_H2Client.v
theories/P_H2Client.v
theories/L_Upgrade.v
theories/L_Handover.v
theories/P_Upgrade.v
theories/S_Inbound.v
theories/L_Inbound.v
theories/P_Inbound.v
theories/M_Parse.v
theories/S_Parse.v
theories/P_Parse.v
theories/S_Outbound.v
theories/L_Outbound.v
theories/P_Outbound.v
theories/P_EndToEnd.v
theories/S_Refuse.v
theories/P_Refuse.v
theories/S_Accept.v
theories/L_Accept.v
theories/S_Rest.v
theories/L_Rest.v
theories/P_Rest.v
theories/S_Idle.v
theories/L_Idle.v
theories/P_Idle.v
theories/S_Wish.v
theories/P_Wish.v
theories/P_Once.v
theories/M_Upgrade.v
theories/S_Upgrade.v
theories/P_Handoff.v
theories/M_Exec.v
theories/S_Exec.v
theories/P_Exec.v
theories/M_CHeaders.v
theories/S_CHeaders.v
theories/P_CHeaders.v
theories/S_Names.v
theories/P_Names.v
theories/M_H2Conn.v
theories/P_H2Conn.v
theories/S_Reply.v
theories/L_Reply.v
theories/P_Reply.v
theories/S_Answers.v
theories/P_Answers.v
theories/P_RoundTrip.v
theories/P_Conversation.v
theories/P_Accept.v
theories/S_Writable.v
theories/L_Writable.v
theories/P_Writable.v
theories/L_Encodable.v
theories/P_Encodable.v
theories/M_Builder.v
theories/S_Builder.v
theories/P_Builder.v
theories/M_CBody.v
theories/P_CBody.v
theories/M_Error.v
theories/P_Error.v
theories/P_NoLength.v
theories/P_PingSpaced.v

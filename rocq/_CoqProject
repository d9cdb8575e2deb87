-Q theories Verif

theories/Base.v
theories/M_IntConv.v
theories/S_IntConv.v
theories/L_Base.v
theories/L_IntConv.v
theories/L_IntStr.v
theories/T_IntConv.v
theories/GoStr.v
theories/M_Address.v
theories/S_Address.v
theories/L_Address.v
theories/T_Address.v
theories/M_Rlp.v
theories/S_Rlp.v
theories/L_Rlp.v
theories/GoSort.v
theories/M_Codec.v
theories/S_Codec.v
theories/L_Codec.v
theories/T_Rlp.v
theories/T_Codec.v
theories/M_Mbt.v
theories/S_Mbt.v
theories/L_Mbt.v
theories/L_Mbt2.v
theories/L_Mbt3.v
theories/T_Mbt.v
theories/M_Mta.v
theories/S_Mta.v
theories/L_Mta.v
theories/L_Mta2.v
theories/L_Mta3.v
theories/L_Mta4.v
theories/L_Mta5.v
theories/L_Mta6.v
theories/T_Mta.v
theories/M_Mpt.v
theories/S_Mpt.v
theories/T_Mpt.v
theories/M_Db.v
theories/S_Db.v
theories/T_Db.v
theories/M_Errors.v
theories/S_Errors.v
theories/T_Errors.v
theories/M_Sender.v
theories/T_Sender.v
theories/M_Fragment.v
theories/S_Fragment.v
theories/T_Fragment.v
theories/M_Serialize.v
theories/S_Serialize.v
theories/T_Serialize.v
theories/M_Link.v
theories/S_Link.v
theories/T_Link.v
theories/M_Receive.v
theories/S_Receive.v
theories/T_Receive.v
theories/M_Crypto.v
theories/S_Crypto.v
theories/T_Crypto.v
theories/M_Misc.v
theories/S_Misc.v
theories/T_Misc.v
theories/M_JBmv.v
theories/S_JBmv.v
theories/L_JBmv.v
theories/L_JBmv2.v
theories/L_JBmv3.v
theories/T_JBmv.v
theories/T_Link2.v
theories/M_SendTx.v
theories/T_SendTx.v
theories/M_JDict.v
theories/M_JMap.v
theories/L_JMap.v
theories/L_JSum.v
theories/S_JDict.v
theories/T_JDict.v
theories/M_JBmc.v
theories/S_JBmc.v
theories/L_JBmc.v
theories/T_JBmc.v
theories/X_JBmc.v
theories/T_JBmc2.v
theories/T_JBmc3.v
theories/T_JBmc4.v
theories/T_JBmc5.v
theories/T_JBmc6.v
theories/M_Wire.v
theories/S_Wire.v
theories/L_Wire.v
theories/T_Wire.v
theories/M_SolRlp.v
theories/S_SolRlp.v
theories/L_SolRlp.v
theories/T_SolRlp.v
theories/M_BtpAddr.v
theories/S_BtpAddr.v
theories/L_BtpAddr.v
theories/T_BtpAddr.v
theories/M_Bridge.v
theories/S_Bridge.v
theories/L_Bridge.v
theories/T_Bridge.v
theories/S_BridgeWire.v
theories/T_BridgeWire.v
theories/M_SolBmv.v
theories/S_SolBmv.v
theories/L_SolBmv.v
theories/L_SolBmv2.v
theories/L_SolBmv3.v
theories/L_SolBmv4.v
theories/L_SolBmv5.v
theories/T_SolBmv.v
theories/T_SolBmv2.v
theories/M_XCall.v
theories/M_JCall.v
theories/M_SolCall.v
theories/S_XCall.v
theories/L_XCall.v
theories/S_JCall.v
theories/L_JCall.v
theories/L_SolCall.v
theories/L_XSeen.v
theories/L_CallWire.v
theories/L_XEnd.v
theories/L_XAdmin.v
theories/T_XCall.v
theories/M_Path.v
theories/S_Path.v
theories/L_Path.v
theories/T_Path.v
theories/M_Relay.v
theories/S_Relay.v
theories/T_Relay.v
theories/M_MsgPack.v
theories/S_MsgPack.v
theories/L_MsgPack.v
theories/L_MsgPack2.v
theories/L_MsgPack3.v
theories/L_MsgPack4.v
theories/T_MsgPack.v
theories/M_SBmc.v
theories/S_SBmc.v
theories/L_SBmc.v
theories/X_SBmc.v
theories/T_SBmc.v
theories/T_SBmc2.v
theories/T_SBmc3.v
theories/T_SBmc4.v
theories/T_SBmc5.v
theories/S_SBmc2.v
theories/L_SBmc2.v
theories/L_SBmc3.v
theories/T_SBmc6.v
theories/T_SBmc7.v
theories/S_SBmc3.v
theories/T_SBmc8.v
theories/T_SBmc9.v
theories/M_JMsg.v
theories/S_Msg.v
theories/L_Msg.v
theories/T_Msg.v
theories/T_Msg2.v
theories/T_Msg3.v
theories/M_JMta.v
theories/L_JMta.v
theories/L_JMta2.v
theories/T_JMta.v
theories/M_JMpt.v
theories/S_JMpt.v
theories/L_JMpt.v
theories/T_JMpt.v
theories/M_JIcon.v
theories/M_JIbmv.v
theories/S_JIbmv.v
theories/L_JIbmv.v
theories/T_JIbmv.v
theories/M_JIstore.v
theories/S_JIwire.v
theories/L_JIwire.v
theories/T_JIwire.v
theories/L_NetW.v
theories/M_Net.v
theories/S_Net.v
theories/L_Net.v
theories/L_Net2.v
theories/L_Net3.v
theories/L_Net4.v
theories/L_Net5.v
theories/X_Net.v
theories/T_Net.v
theories/M_Ncs.v
theories/S_Ncs.v
theories/L_Ncs.v
theories/L_Ncs2.v
theories/L_Ncs3.v
theories/T_Ncs.v
theories/M_NcsNet.v
theories/S_NcsNet.v
theories/L_NcsNet.v
theories/L_NcsNet2.v
theories/T_NcsNet.v
theories/M_NcsBytes.v
theories/S_NcsBytes.v
theories/T_NcsBytes.v
theories/M_Tbsh.v
theories/S_Tbsh.v
theories/L_Tbsh.v
theories/L_Tbsh2.v
theories/L_Tbsh3.v
theories/L_Tbsh4.v
theories/L_Tbsh5.v
theories/T_Tbsh.v
theories/M_TbshBytes.v
theories/S_TbshBytes.v
theories/T_TbshBytes.v
theories/M_Fee.v
theories/S_Fee.v
theories/L_Fee.v
theories/L_Fee2.v
theories/L_Fee3.v
theories/L_Fee4.v
theories/L_Fee5.v
theories/L_Fee6.v
theories/T_Fee.v
theories/M_Race.v
theories/S_Race.v
theories/T_Race.v
theories/M_Btp2.v
theories/S_Btp2.v
theories/L_Btp2.v
theories/L_Btp2v.v
theories/T_Btp2.v
theories/M_Brl.v
theories/S_Brl.v
theories/L_Brl.v
theories/T_Brl.v
theories/M_PyRlp.v
theories/S_PyRlp.v
theories/L_PyRlp.v
theories/T_PyRlp.v
theories/M_PyMta.v
theories/L_PyMta.v
theories/T_PyMta.v
theories/M_PyMpt.v
theories/S_PyMpt.v
theories/L_PyMpt.v
theories/T_PyMpt.v
theories/M_PyDb.v
theories/S_PyDb.v
theories/L_PyDb.v
theories/T_PyDb.v
theories/M_PyBmv.v
theories/S_PyBmv.v
theories/L_PyBmv.v
theories/T_PyBmv.v
theories/M_PyBmc.v
theories/S_PyBmc.v
theories/L_PyBmc.v
theories/T_PyBmc.v
theories/M_PyLink.v
theories/S_PyLink.v
theories/L_PyLink.v
theories/T_PyLink.v
theories/M_PyPerm.v
theories/S_PyPerm.v
theories/L_PyPerm.v
theories/T_PyPerm.v
theories/M_PyToken.v
theories/S_PyToken.v
theories/L_PyToken.v
theories/T_PyToken.v
theories/M_PyPair.v
theories/S_PyPair.v
theories/L_PyPair.v
theories/T_PyPair.v
theories/M_PyIrc2.v
theories/S_PyIrc2.v
theories/L_PyIrc2.v
theories/T_PyIrc2.v
theories/M_Irc31.v
theories/S_Irc31.v
theories/L_Irc31.v
theories/T_Irc31.v
theories/L_Irc31Rlp.v
theories/T_Irc31Rlp.v
theories/M_CpfTreasury.v
theories/S_CpfTreasury.v
theories/L_CpfTreasury.v
theories/T_CpfTreasury.v
theories/M_DappSample.v
theories/S_DappSample.v
theories/L_DappSample.v
theories/T_DappSample.v
theories/M_TextUtil.v
theories/S_TextUtil.v
theories/T_TextUtil.v
theories/M_RefData.v
theories/S_RefData.v
theories/T_RefData.v

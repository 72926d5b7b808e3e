-Q theories Verif
theories/Common.v
theories/Bits.v
theories/BitStream_Model.v
theories/BitStream_Spec.v
theories/Endian_Proofs.v
theories/Endian_Props.v
theories/BitStream_Proofs.v
theories/BitStream_Props.v
theories/Base64_Model.v
theories/Base64_Spec.v
theories/Base64_Proofs.v
theories/Base64_Props.v
theories/Huffman_Model.v
theories/Huffman_Codes_Proofs.v
theories/Huffman_Proofs.v
theories/Huffman_Spec.v
theories/Huffman_Optimal_Proofs.v
theories/Huffman_Props.v
theories/HuffmanFile_Spec.v
theories/HuffmanFile_Proofs.v
theories/HuffmanFile_Props.v
theories/Unicode_Model.v
theories/Unicode_Spec.v
theories/Unicode_Proofs.v
theories/Unicode_Props.v
theories/Unescape_Spec.v
theories/Unescape_Props.v
theories/Literal_Model.v
theories/Literal_Spec.v
theories/Literal_Props.v
theories/Lexer_Model.v
theories/Lexer_Spec.v
theories/Lexer_Props.v
theories/Strings_Model.v
theories/Strings_Spec.v
theories/Strings_Proofs.v
theories/Strings_Props.v
theories/Format_Model.v
theories/Format_Spec.v
theories/Format_Proofs.v
theories/Format_Props.v
theories/Net_Model.v
theories/Net_Spec.v
theories/Net_Proofs.v
theories/Net6_Proofs.v
theories/Net_Props.v
theories/FormatString_Model.v
theories/FormatString_Spec.v
theories/FormatString_Proofs.v
theories/FormatString_Stages.v
theories/FormatString_Field.v
theories/FormatString_Loop.v
theories/FormatString_Props.v
theories/Json_Model.v
theories/Json_Spec.v
theories/Json_String_Proofs.v
theories/Json_Parser_Proofs.v
theories/Json_Token_Proofs.v
theories/Json_Grammar_Proofs.v
theories/Json_Order_Proofs.v
theories/Json_Props.v
theories/Json_Order_Props.v
theories/Ini_Model.v
theories/Ini_Spec.v
theories/Ini_Proofs.v
theories/Ini_Props.v
theories/Diag_Model.v
theories/Diag_Spec.v
theories/Diag_Proofs.v
theories/Diag_Ini_Proofs.v
theories/Diag_Props.v
theories/ParseFile_Model.v
theories/ParseFile_Spec.v
theories/ParseFile_Proofs.v
theories/ParseFile_Props.v
theories/Concurrent_Model.v
theories/Concurrent_Spec.v
theories/Concurrent_Proofs.v
theories/Concurrent_Props.v
theories/Task_Model.v
theories/Task_Spec.v
theories/Task_Proofs.v
theories/Task_Live.v
theories/Task_Props.v
theories/Task_Fair_Spec.v
theories/Task_Fair.v
theories/Task_Fair_Props.v
theories/Service_Model.v
theories/Service_Spec.v
theories/Service_Proofs.v
theories/Service_Props.v
theories/Socket_Model.v
theories/Socket_Spec.v
theories/Socket_Proofs.v
theories/Socket_Props.v
theories/Socket_Fair_Spec.v
theories/Socket_Fair_Props.v
theories/System_Model.v
theories/System_Spec.v
theories/System_Props.v
theories/Logger_Model.v
theories/Logger_Spec.v
theories/Logger_Proofs.v
theories/Logger_Props.v
theories/Registry_Model.v
theories/Registry_Props.v
theories/Path_Model.v
theories/Path_Spec.v
theories/Path_Proofs.v
theories/Path_Props.v
theories/JsonApi_Model.v
theories/JsonApi_Spec.v
theories/JsonApi_Proofs.v
theories/JsonApi_Props.v
theories/JsonIter_Props.v
theories/JsonConv_Model.v
theories/JsonConv_Props.v
theories/Config_Model.v
theories/Config_Spec.v
theories/Config_Props.v
theories/Reply_Model.v
theories/Reply_Spec.v
theories/Reply_Props.v
theories/Handle_Model.v
theories/Handle_Spec.v
theories/Handle_Props.v
theories/Float_Model.v
theories/Float_Spec.v
theories/Float_Proofs.v
theories/Float_Props.v
theories/Join_Model.v
theories/Join_Spec.v
theories/Join_Props.v
theories/Coder_Model.v
theories/Coder_Spec.v
theories/Coder_Props.v
theories/Styler_Model.v
theories/Styler_Spec.v
theories/Styler_Props.v
theories/Signal_Model.v
theories/Signal_Spec.v
theories/Signal_Props.v
theories/SysText_Model.v
theories/SysText_Spec.v
theories/SysText_Props.v
theories/Foreign_Model.v
theories/Foreign_Props.v
theories/JsonWide_Model.v
theories/JsonWide_Props.v
theories/JsonFloat_Model.v
theories/JsonFloat_Proofs.v
theories/JsonFloat_Props.v
theories/JsonValue_Props.v
theories/FloatStream_Model.v
theories/FloatStream_Props.v
theories/FormatFields_Props.v
theories/FloatRead_Model.v
theories/FloatRead_Spec.v
theories/FloatRead_Proofs.v
theories/FloatRead_Text_Proofs.v
theories/FloatRead_Props.v
theories/FloatRound_Props.v
theories/FloatPrint_Proofs.v
theories/JsonReal_Spec.v
theories/JsonReal_Proofs.v
theories/JsonReal_Props.v
theories/LogThreads_Model.v
theories/LogThreads_Spec.v
theories/LogThreads_Proofs.v
theories/LogThreads_Props.v
theories/JsonSets_Model.v
theories/JsonSets_Spec.v
theories/JsonSets_Proofs.v
theories/JsonSets_Props.v
theories/Assert_Model.v
theories/Assert_Spec.v
theories/Assert_Proofs.v
theories/Assert_Props.v
theories/Components_Spec.v
theories/Components_Model.v
theories/Components_Props.v
theories/LogPoint_Model.v
theories/LogPoint_Proofs.v
theories/LogPoint_Spec.v
theories/LogPoint_Props.v
theories/JsonRel_Model.v
theories/JsonRel_Props.v
theories/SockAddr_Model.v
theories/SockAddr_Spec.v
theories/SockAddr_Props.v
theories/Task_Alive_Props.v
theories/JsonWhat_Model.v
theories/JsonWhat_Spec.v
theories/JsonWhat_Props.v
theories/JsonWhat_Shown_Props.v
theories/Assumptions.v

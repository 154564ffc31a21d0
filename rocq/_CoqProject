-Q theories Verif
theories/Py.v
theories/CharClass.v
theories/CharClassSpec.v
theories/CharClassProofs.v
theories/CharClassProps.v
theories/Uri.v
theories/UriSpec.v
theories/UriProofs.v
theories/UriProofs2.v
theories/UriProofs3.v
theories/UriProps.v
theories/Iso.v
theories/IsoSpec.v
theories/IsoProofs.v
theories/IsoProofs2.v
theories/IsoProofs3.v
theories/IsoProofs4.v
theories/IsoProofs5.v
theories/IsoProofs6.v
theories/IsoProps.v
theories/Dec.v
theories/XmlUtils.v
theories/XmlSpec.v
theories/XmlProofs.v
theories/XmlProofs2.v
theories/XmlProps.v
theories/Imscp.v
theories/ImscpSpec.v
theories/ImscpProofs.v
theories/ImscpProps.v
theories/FixWin.v
theories/FixWinProofs.v
theories/FixWinProps.v
theories/Rtf.v
theories/RtfSpec.v
theories/RtfProofs.v
theories/RtfProps.v
theories/Xsd.v
theories/XsdSpec.v
theories/XsdProofs.v
theories/XsdProofs2.v
theories/XsdProps.v
theories/QtiValue.v
theories/QtiExpr.v
theories/QtiSpec.v
theories/QtiProofs.v
theories/QtiProofs2.v
theories/QtiProofs3.v
theories/QtiProofs4.v
theories/QtiProofs5.v
theories/QtiProps.v
theories/QtiProps2.v
theories/QtiProc.v
theories/QtiProcSpec.v
theories/QtiProcProofs.v
theories/QtiProcProofs2.v
theories/QtiProcProofs3.v
theories/QtiProcProofs4.v
theories/QtiProcProps.v
theories/QtiProcProps2.v
theories/ContentModel.v
theories/ContentModelSpec.v
theories/ContentModelProofs.v
theories/ContentModelProofs2.v
theories/ContentModelProps.v
theories/XmlChars.v
theories/XmlCharsSpec.v
theories/XmlCharsProofs.v
theories/XmlCharsProofs2.v
theories/XmlCharsProps.v
theories/Shapes.v
theories/ShapesSpec.v
theories/ShapesProofs.v
theories/ShapesProofs2.v
theories/ShapesProps.v
theories/Memds.v
theories/MemdsSpec.v
theories/MemdsProofs.v
theories/MemdsProofs2.v
theories/MemdsProofs3.v
theories/MemdsProofs4.v
theories/MemdsProps.v
theories/TestForm.v
theories/TestFormSpec.v
theories/TestFormProofs.v
theories/TestFormProofs2.v
theories/TestFormProofs3.v
theories/TestFormProps.v
theories/TestSession.v
theories/TestSessionSpec.v
theories/TestSessionProofs.v
theories/TestSessionProofs2.v
theories/TestSessionProofs3.v
theories/TestSessionProofs4.v
theories/TestSessionProofs5.v
theories/TestSessionProofs6.v
theories/TestSessionProps.v
theories/HttpCore.v
theories/HttpParams.v
theories/HttpHeaders.v
theories/HttpSpec.v
theories/HttpProofs.v
theories/HttpProofs2.v
theories/HttpProofs3.v
theories/HttpProofs4.v
theories/HttpProofs5.v
theories/HttpProofs6.v
theories/HttpProofs7.v
theories/HttpProofs8.v
theories/HttpProofs9.v
theories/HttpProps.v
theories/V1Mig.v
theories/V1MigSpec.v
theories/V1MigProofs.v
theories/V1MigProofs2.v
theories/V1MigProofs3.v
theories/V1MigProofs4.v
theories/V1MigProofs5.v
theories/V1MigProofs6.v
theories/V1MigProofs7.v
theories/V1MigProofs8.v
theories/V1MigProps.v
theories/MigWrite.v
theories/MigWriteSpec.v
theories/MigWriteProofs.v
theories/MigWriteProofs2.v
theories/MigWriteProofs3.v
theories/MigWriteProps.v
theories/MigItem.v
theories/MigItemSpec.v
theories/MigItemProofs.v
theories/MigItemProofs2.v
theories/MigItemProofs3.v
theories/MigItemProofs4.v
theories/MigItemProofs5.v
theories/MigItemProofs6.v
theories/MigItemProofs7.v
theories/MigItemProofs8.v
theories/MigItemProps.v
theories/OdPage.v
theories/OdPageSpec.v
theories/OdPageProofs.v
theories/OdPageProofs2.v
theories/OdPageProps.v
theories/SqlPage.v
theories/SqlPageSpec.v
theories/SqlPageProofs.v
theories/SqlPageProofs2.v
theories/SqlPageProofs3.v
theories/SqlPageProps.v
theories/OdExpr.v
theories/OdExprSpec.v
theories/OdExprProofs.v
theories/OdExprProofs2.v
theories/OdExprProofs3.v
theories/OdExprProofs4.v
theories/OdExprProofs5.v
theories/OdExprProofs6.v
theories/OdExprProps.v
theories/OdEval.v
theories/OdEvalSpec.v
theories/OdEvalSpecF.v
theories/OdEvalTypes.v
theories/OdEvalProofs.v
theories/OdEvalProofs2.v
theories/OdEvalProofs3.v
theories/OdEvalProofs4.v
theories/OdEvalFloat.v
theories/OdEvalFloat2.v
theories/OdEvalFloat3.v
theories/OdEvalFloat4.v
theories/OdEvalProofs5.v
theories/OdEvalProofs6.v
theories/OdEvalProofs7.v
theories/OdEvalProofs8.v
theories/OdEvalProofs9.v
theories/OdEvalProofs10.v
theories/OdEvalProps.v
theories/SqlExpr.v
theories/SqlExprSpec.v
theories/SqlExprSpec2.v
theories/SqlExprProofs.v
theories/SqlExprProofs2.v
theories/SqlExprProofs3.v
theories/SqlExprProofs4.v
theories/SqlExprProofs5.v
theories/SqlExprProofs6.v
theories/SqlExprProofs7.v
theories/SqlExprProps.v
theories/SqlPool.v
theories/SqlPoolSpec.v
theories/SqlPoolProofs.v
theories/SqlPoolProofs2.v
theories/SqlPoolProofs3.v
theories/SqlPoolProps.v
theories/SqlTrans.v
theories/SqlTransSpec.v
theories/SqlTransProps.v
theories/SqlTransProps2.v
theories/HttpConn.v
theories/HttpConnSpec.v
theories/HttpConnProofs.v
theories/HttpConnProofs2.v
theories/HttpConnProofs3.v
theories/HttpConnProofs4.v
theories/HttpConnProofs5.v
theories/HttpConnProofs6.v
theories/HttpConnProofs7.v
theories/HttpConnProofs8.v
theories/HttpConnProofs9.v
theories/HttpConnProps.v
theories/HttpConnProps2.v
theories/OdUri.v
theories/OdUriSpec.v
theories/OdUriProofs.v
theories/OdUriProofs2.v
theories/OdUriProofs3.v
theories/OdUriProofs4.v
theories/OdUriProofs5.v
theories/OdUriProps.v
theories/XmlDoc.v
theories/XmlDocSpec.v
theories/XmlDocProofs.v
theories/XmlDocProofs2.v
theories/XmlDocProofs3.v
theories/XmlDocProofs4.v
theories/XmlDocProofs5.v
theories/XmlDocProofs6.v
theories/XmlDocProps.v
theories/XmlOut.v
theories/XmlOutSpec.v
theories/XmlOutProofs.v
theories/XmlOutProofs2.v
theories/XmlOutProofs3.v
theories/XmlOutProps.v
theories/XmlNs.v
theories/XmlNsSpec.v
theories/XmlNsProofs.v
theories/XmlNsProofs2.v
theories/XmlNsProofs3.v
theories/XmlNsProofs4.v
theories/XmlNsProofs5.v
theories/XmlNsProps.v
theories/Cpkg.v
theories/CpkgSpec.v
theories/CpkgProofs.v
theories/CpkgProofs2.v
theories/CpkgProofs3.v
theories/CpkgProofs4.v
theories/CpkgProofs5.v
theories/CpkgProofs6.v
theories/CpkgProps.v
theories/HttpAuth.v
theories/HttpAuthSpec.v
theories/HttpAuthProofs.v
theories/HttpAuthProofs2.v
theories/HttpAuthProofs3.v
theories/HttpAuthProps.v
theories/HttpPool.v
theories/HttpPoolSpec.v
theories/HttpPoolProofs.v
theories/HttpPoolProofs2.v
theories/HttpPoolProofs3.v
theories/HttpPoolProofs4.v
theories/HttpPoolProofs5.v
theories/HttpPoolProps.v
theories/SqlOrderProps.v
theories/Abnf.v
theories/AbnfSpec.v
theories/AbnfProofs.v
theories/AbnfProofs2.v
theories/AbnfProofs3.v
theories/AbnfProofs4.v
theories/AbnfProps.v
theories/NameTab.v
theories/NameTabSpec.v
theories/NameTabProofs.v
theories/NameTabProps.v
theories/EdmLit.v
theories/EdmLitSpec.v
theories/EdmLitProofs.v
theories/EdmLitProofs2.v
theories/EdmLitProps.v
theories/EdmEnt.v
theories/EdmEntSpec.v
theories/EdmEntProofs.v
theories/EdmEntProps.v
theories/WsgiIn.v
theories/WsgiInSpec.v
theories/WsgiInProofs.v
theories/WsgiInProofs2.v
theories/WsgiInProps.v
theories/Lti.v
theories/LtiSpec.v
theories/LtiProofs.v
theories/LtiProps.v
theories/OdVer.v
theories/OdVerSpec.v
theories/OdVerProps.v
theories/OdVal.v
theories/OdValProps.v
theories/OdBody.v
theories/OdBodySpec.v
theories/OdBodyProps.v

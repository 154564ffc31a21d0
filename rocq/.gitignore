*.aux
*.d
*.glob
*.vo
*.vok
*.vos
.Makefile.d
.csdp.cache
.lia.cache
.nia.cache
Makefile
Makefile.conf

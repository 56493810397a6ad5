*.vo
*.vok
*.vos
*.glob
*.aux
Makefile
Makefile.conf
.Makefile.d
*.d
.*.aux
.lia.cache
.nia.cache
*.vos
*.vok
